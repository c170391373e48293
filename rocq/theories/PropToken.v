(** * C57: who may mint the base token, and how its supply changes. *)
From Coq Require Import ZArith QArith List Bool Lia ZifyBool.
From Verif Require Import Base MathModel CurveModel FeeModel ConfigModel PoolModel TxModel
  SystemModel Fixtures Spec Lib CurveProofs CurveLoops Potential CalcProofs ConfigProofs FeeProofs
  SwapProofs InvProofs InvOps InvReach FixturesReach Effects Frame SpecHist PropFees Only PropPay PropAccess.
Import ListNotations.
Open Scope Z_scope.
#[local] Arguments Z.pow : simpl never.
#[local] Arguments Z.testbit : simpl never.

(** What the five options of a config promise (the comments at state/config.rs:369-381). *)
Inductive minter (creator partner : Z) : Z -> option Z -> Prop :=
| mi_none o : o = 0 \/ o = 1 \/ o = 2 -> minter creator partner o None
| mi_creator : minter creator partner 3 (Some creator)
| mi_partner : minter creator partner 4 (Some partner).
Inductive updater (creator partner : Z) : Z -> option Z -> Prop :=
| up_creator o : o = 0 \/ o = 3 -> updater creator partner o (Some creator)
| up_partner o : o = 2 \/ o = 4 -> updater creator partner o (Some partner)
| up_none : updater creator partner 1 None.

(** The authorities over the base token are those of the config from the creation of the pool
    on, whatever happens afterwards. [creator] is who created the pool: passing on the creator
    role later passes on neither authority. *)
Theorem C57_token_authorities : forall c key creator payer tt slot time admins operators w0 ops,
  created c -> u64ok slot -> u64ok time ->
  initialize_pool c key creator payer tt slot time admins operators = Ok w0 ->
  minter creator (c_fee_claimer c) (c_token_update_authority c) (w_mint_auth (run w0 ops))
  /\ updater creator (c_fee_claimer c) (c_token_update_authority c) (w_update_auth (run w0 ops)).
Proof.
  intros c key creator payer tt slot time admins operators w0 ops C S T H.
  assert (IN : initial w0) by (exists c, key, creator, payer, tt, slot, time, admins, operators; auto).
  pose proof (run_frame ops w0 (initial_inv _ IN)) as FR. rewrite (fr_mint _ _ FR), (fr_update _ _ FR).
  unfold initialize_pool in H. do 5 (apply bind_ok in H; destruct H as (? & _ & H)).
  apply bind_ok in H. destruct H as (up & U & H). apply bind_ok in H. destruct H as (mi & M & H).
  apply bind_ok in H. destruct H as (act & _ & H). apply Ok_inj in H. subst w0. cbn [w_mint_auth w_update_auth].
  unfold get_mint_authority in M. unfold get_update_authority in U.
  set (o := c_token_update_authority c) in *. split.
  - destruct (o =? 3) eqn:E3; [apply Ok_inj in M; subst mi; replace o with 3 by lia; constructor|].
    destruct (o =? 4) eqn:E4; [apply Ok_inj in M; subst mi; replace o with 4 by lia; constructor|].
    destruct ((0 <=? o) && (o <=? 2)) eqn:E; [|discriminate]. apply Ok_inj in M. subst mi. constructor. lia.
  - destruct ((o =? 0) || (o =? 3)) eqn:E3; [apply Ok_inj in U; subst up; constructor; lia|].
    destruct ((o =? 2) || (o =? 4)) eqn:E4; [apply Ok_inj in U; subst up; constructor; lia|].
    destruct (o =? 1) eqn:E; [|discriminate]. apply Ok_inj in U. subst up. replace o with 1 by lia. constructor.
Qed.

(** Base tokens created less base tokens destroyed, according to the record of movements. *)
Definition minted (t : transfer) : Z :=
  if same_token TBase (t_token t)
  then (match t_from t with PMint => t_amount t | _ => 0 end)
       - (match t_to t with PMint => t_amount t | _ => 0 end)
  else 0.
Definition issued (l : list transfer) : Z := fold_right (fun t s => minted t + s) 0 l.

Lemma issued_app a b : issued (a ++ b) = issued a + issued b.
Proof. induction a; simpl; [reflexivity|rewrite IHa; lia]. Qed.

(** The only instruction that adds to the supply is a mint signed by the configured authority;
    migration may burn, and so may holders their own tokens; nothing else changes it. *)
Theorem C57_supply_changes : forall w o,
  reachable w ->
  let w' := step w o in
  (w_supply w < w_supply w' -> exists s k a, o = OMint s k a /\ w_mint_auth w = Some s)
  /\ (w_supply w' < w_supply w -> migrate_op o = true \/ exists s a, o = OBurn s a).
Proof.
  intros w o R w'. subst w'. destruct (exec w o) as [w'|] eqn:H; [|rewrite (step_err _ _ _ H); lia].
  rewrite (step_ok _ _ _ H). destruct (migrate_op o) eqn:MO.
  - split; [|auto]. destruct (C51_burn_at_migration _ _ _ R MO H) as (B0 & SU & _). lia.
  - destruct (is_mint o) eqn:MI.
    + destruct o; try discriminate MI. pose proof (exec_args _ _ _ H) as A. simpl in A.
      apply u64b_ok in A. destruct A as (A & _). unfold exec in H.
      apply bind_ok in H. destruct H as (u0 & _ & H).
      apply bind_ok in H. destruct H as (u & Q & H). apply bind_ok in H. destruct H as (x & S & H).
      apply Ok_inj in H. subst w'. apply sadd_ok in S. simpl. split; [|lia]. intros _.
      apply require_ok in Q. exists signer, to, a. split; [reflexivity|].
      destruct (w_mint_auth w); [|discriminate]. f_equal. lia.
    + destruct (is_burn o) eqn:BU; [|rewrite (on_supply _ _ _ (exec_only _ _ _ (reachable_inv _ R) H)); auto; lia].
      destruct o; try discriminate BU. pose proof (exec_args _ _ _ H) as A. simpl in A.
      apply u64b_ok in A. destruct A as (A & _). unfold exec in H.
      apply bind_ok in H. destruct H as (u0 & _ & H). apply bind_ok in H. destruct H as (u & _ & H).
      apply Ok_inj in H. subst w'. simpl. split; [lia|]. intros _. right. exists signer, a. reflexivity.
Qed.

(** Without a mint authority the supply never grows after creation, in any history. *)
Theorem C57_supply_never_grows : forall w0 ops more,
  initial w0 -> 0 <= c_token_update_authority (w_config w0) <= 2 ->
  w_supply (run w0 (ops ++ more)) <= w_supply (run w0 ops).
Proof.
  intros w0 ops more I O. rewrite run_app.
  assert (X : forall l w, reachable w -> w_mint_auth w = None -> w_supply (run w l) <= w_supply w).
  { clear. induction l as [|o l IH]; intros w R M; [simpl; lia|].
    change (run w (o :: l)) with (run (step w o) l).
    assert (R1 : reachable (step w o)) by (change (step w o) with (run w [o]); apply reachable_run; auto).
    assert (M1 : w_mint_auth (step w o) = None).
    { rewrite <- M. apply (fr_mint _ _ (run_frame [o] w (reachable_inv _ R))). }
    specialize (IH _ R1 M1). destruct (C57_supply_changes w o R) as (G & _).
    destruct (Z_le_gt_dec (w_supply (step w o)) (w_supply w)); [lia|].
    destruct (G ltac:(lia)) as (s & k & a & _ & E). congruence. }
  apply X; [exists w0, ops; auto|].
  destruct I as (c & key & creator & payer & tt & slot & time & admins & operators & C & S & T & H).
  destruct (C57_token_authorities _ _ _ _ _ _ _ _ _ _ ops C S T H) as (MI & _).
  assert (E : w_config w0 = c).
  { unfold initialize_pool in H. do 8 (apply bind_ok in H; destruct H as (? & _ & H)). apply Ok_inj in H. subst w0. reflexivity. }
  rewrite E in O. inversion MI; auto; lia.
Qed.

(** At any time the supply is what was minted less what was burned. *)
Lemma issued_rest w w' p l : eff w w' p l -> rest_same w w' -> issued l = 0 ->
  w_supply w' - w_supply w = issued (w_log w') - issued (w_log w).
Proof. intros E R N. rewrite (ef_log _ _ _ _ E), issued_app, (rs_supply _ _ R), N. lia. Qed.
Lemma issued_burned b : 0 <= b -> issued (burned b) = - b.
Proof. intros B. unfold burned. destruct (0 <? b) eqn:E; simpl; unfold minted; simpl; lia. Qed.
Lemma issued_cond (b : bool) x : issued x = 0 -> issued (if b then x else []) = 0.
Proof. destruct b; auto. Qed.

Lemma exec_issued w o w' : Inv w -> exec w o = Ok w' ->
  w_supply w' - w_supply w = issued (w_log w') - issued (w_log w).
Proof.
  intros I H. pose proof (exec_args _ _ _ H) as A. pose proof H as H0.
  destruct o; try (unfold exec in H; rewrite A in H; cbn [require bind] in H).
  - destruct (swap_eff _ _ _ I H0) as (fm & r & num & fee & gross & pf & cf & cur & p1 & SE & _ & _ & E & R).
    eapply issued_rest; eauto. clear. unfold swap_log, fee_token. destruct (sa_dir a), (sa_referral a), (fm_on_base fm); reflexivity.
  - apply partner_eff in H. destruct H as (_ & E & R). eapply issued_rest; eauto.
  - apply creator_eff in H. destruct H as (_ & E & R). eapply issued_rest; eauto.
  - simpl in A. apply andb_true_iff in A. destruct A as (A1 & A2). apply u64b_ok in A1, A2.
    destruct A1 as (A1 & _), A2 as (A2 & _).
    apply (protocol_eff _ _ _ _ _ I A1 A2) in H. cbv zeta in H.
    destruct H as (_ & p' & E & R & a1 & b1 & a2 & b2 & _).
    eapply issued_rest; eauto. rewrite issued_app, !issued_cond by reflexivity. reflexivity.
  - simpl in A. apply u64b_ok in A. destruct A as (A & _).
    apply (zap_eff _ _ _ _ _ _ _ I A) in H. cbv zeta in H.
    destruct H as (_ & _ & _ & p' & E & R & _).
    eapply issued_rest; eauto. destruct base; reflexivity.
  - apply partner_surplus_eff in H; auto. destruct H as (_ & _ & _ & E & R). eapply issued_rest; eauto.
  - apply creator_surplus_eff in H; auto. destruct H as (_ & _ & _ & E & R). eapply issued_rest; eauto.
  - apply migration_fee_eff in H; auto.
    destruct H as (_ & R & [(_ & _ & B & E)|(_ & _ & B & E)]); eapply issued_rest; eauto.
  - apply leftover_eff in H; auto. destruct H as (_ & _ & _ & E & R). eapply issued_rest; eauto.
  - apply partner_cf_eff in H; auto. destruct H as (_ & _ & B & E & R). eapply issued_rest; eauto.
  - apply protocol_cf_eff in H; auto. cbv zeta in H. destruct H as (_ & E & R).
    eapply issued_rest; eauto. apply issued_cond. reflexivity.
  - apply transfer_creator_eff in H. destruct H as (_ & _ & _ & _ & E & R). eapply issued_rest; eauto.
  - apply locker_eff in H. destruct H as (P1 & E & _ & SU & _).
    rewrite (ef_log _ _ _ _ E), issued_app, SU. simpl. unfold minted. simpl. lia.
  - apply metadata_eff in H. destruct H as (_ & MM & E & ME & SU & _).
    rewrite (ef_log _ _ _ _ E), issued_app, SU. simpl. lia.
  - apply migrate_v1_eff in H.
    destruct H as (m & m' & fb & fq & eb & eq & b & mb & _ & P2 & _ & _ & _ & E & _ & B & SU & _).
    rewrite (ef_log _ _ _ _ E), !issued_app, SU, issued_burned by lia. simpl. unfold minted. simpl. lia.
  - apply migrate_v2_eff in H.
    destruct H as (fb & fq & eb & eq & l2 & b & mb & h & _ & P2 & _ & _ & L2 & _ & _ & E & _ & B & SU & _).
    assert (N2 : issued l2 = 0) by (destruct L2 as [-> |(-> & _)]; reflexivity).
    rewrite (ef_log _ _ _ _ E), !issued_app, SU, N2, issued_burned by lia. simpl. unfold minted. simpl. lia.
  - apply lock_lp_eff in H.
    destruct H as (m & m' & a & P3 & MM & M' & MP & _ & _ & _ & _ & E & LP & SU & _).
    rewrite (ef_log _ _ _ _ E), issued_app, SU. simpl. unfold minted. simpl. lia.
  - apply claim_lp_eff in H.
    destruct H as (m & m' & a & P3 & MM & M' & MP & _ & _ & _ & _ & E & LP & SU & _).
    rewrite (ef_log _ _ _ _ E), issued_app, SU. simpl. unfold minted. simpl. lia.
  - unfold create_operator in H. apply bind_ok in H. destruct H as (u & _ & H).
    apply bind_ok in H. destruct H as (u1 & _ & H). apply bind_ok in H. destruct H as (u2 & _ & H).
    apply Ok_inj in H. subst w'. simpl. lia.
  - unfold close_operator in H. apply bind_ok in H. destruct H as (u & _ & H).
    apply bind_ok in H. destruct H as (u1 & _ & H). apply Ok_inj in H. subst w'. simpl. lia.
  - apply recv_base_eff in H. destruct H as (E & R). eapply issued_rest; eauto.
  - apply recv_quote_eff in H. destruct H as (E & R). eapply issued_rest; eauto.
  - apply Ok_inj in H. subst w'. cbn [log set_w_log w_supply w_log set_w_lamports].
    rewrite issued_app. simpl. unfold minted. simpl. lia.
  - apply bind_ok in H. destruct H as (u & _ & H). apply bind_ok in H. destruct H as (t & S & H).
    apply sadd_ok in S. apply Ok_inj in H. subst w'. cbn [log set_w_log w_supply w_log set_w_supply].
    rewrite issued_app. simpl. unfold minted. simpl. lia.
  - apply bind_ok in H. destruct H as (u & _ & H).
    apply Ok_inj in H. subst w'. cbn [log set_w_log w_supply w_log set_w_supply].
    rewrite issued_app. simpl. unfold minted. simpl. lia.
Qed.

Theorem C57_supply_is_issued : forall w, reachable w -> w_supply w = issued (w_log w).
Proof.
  intros w (w0 & ops & I & ->). revert w0 I.
  assert (X : forall ops w, reachable w -> w_supply w = issued (w_log w) ->
             w_supply (run w ops) = issued (w_log (run w ops))).
  { induction ops0 as [|o ops0 IH]; intros w R J; [exact J|].
    change (run w (o :: ops0)) with (run (step w o) ops0). apply IH.
    { change (step w o) with (run w [o]); apply reachable_run; auto. }
    destruct (exec w o) as [w'|] eqn:H; [|rewrite (step_err _ _ _ H); exact J].
    rewrite (step_ok _ _ _ H). pose proof (exec_issued _ _ _ (reachable_inv _ R) H). lia. }
  intros w0 I. apply X; [exists w0, []; auto|].
  destruct I as (c & key & creator & payer & tt & slot & time & admins & operators & C & S & T & H).
  unfold initialize_pool in H. do 8 (apply bind_ok in H; destruct H as (? & _ & H)). apply Ok_inj in H. subst w0.
  simpl. unfold minted. simpl. lia.
Qed.

(** Pool B gives the mint authority to its creator, pool A and C to nobody. *)
Example C57_case :
  initial wB /\ w_mint_auth wB = Some 44 /\ w_supply wB < w_supply (step wB (OMint 44 600 1000))
  /\ initial wA /\ 0 <= c_token_update_authority (w_config wA) <= 2
  /\ w_supply (run wA (histA1 ++ histA2 ++ histA3)) < w_supply wA.
Proof.
  split; [exact initialB|]. split; [reflexivity|]. split; [vm_compute; reflexivity|].
  split; [exact initialA|]. split; [vm_compute; split; congruence|vm_compute; reflexivity].
Qed.

(** Passing on the creator role does not pass on the mint authority. *)
Example C57_transfer_keeps_minter :
  let w := step wB (OTransferCreator 44 45) in
  p_creator (w_pool w) = 45 /\ w_mint_auth w = Some 44.
Proof. vm_compute. split; reflexivity. Qed.

Print Assumptions C57_token_authorities.
Print Assumptions C57_supply_changes.
Print Assumptions C57_supply_never_grows.
Print Assumptions C57_supply_is_issued.
