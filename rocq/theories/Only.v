(** * Which instruction can change which part of the state. *)
From Coq Require Import ZArith QArith List Bool Lia ZifyBool Lqa.
From Verif Require Import Base MathModel CurveModel FeeModel ConfigModel PoolModel TxModel
  SystemModel Spec SpecHist Lib CurveProofs CurveLoops Potential CalcProofs ConfigProofs FeeProofs
  SwapProofs InvProofs InvOps InvReach Effects Frame Bounds.
Import ListNotations.
Open Scope Z_scope.
#[local] Arguments Z.pow : simpl never.
#[local] Arguments Z.testbit : simpl never.

Definition is_psur (o : op) := match o with OPartnerSurplus _ _ => true | _ => false end.
Definition is_csur (o : op) := match o with OCreatorSurplus _ _ => true | _ => false end.
Definition is_prot (o : op) := match o with OClaimProtocol _ _ _ | OZap _ _ _ _ _ => true | _ => false end.
Definition is_mfee (o : op) := match o with OMigrationFee _ _ _ => true | _ => false end.
Definition is_left (o : op) := match o with OLeftover => true | _ => false end.
Definition is_pcf (o : op) := match o with OPartnerCreationFee _ _ => true | _ => false end.
Definition is_prcf (o : op) := match o with OProtocolCreationFee _ => true | _ => false end.
Definition is_transfer (o : op) := match o with OTransferCreator _ _ => true | _ => false end.
Definition is_migrate (o : op) := match o with OMigrateV1 _ _ | OMigrateV2 _ _ => true | _ => false end.
Definition is_v1 (o : op) := match o with OMigrateV1 _ _ => true | _ => false end.
Definition is_locker (o : op) := match o with OCreateLocker => true | _ => false end.
Definition is_lp (o : op) := match o with OLockLp _ | OClaimLp _ => true | _ => false end.
Definition is_operator (o : op) :=
  match o with OCreateOperator _ _ _ | OCloseOperator _ _ => true | _ => false end.
Definition is_meta (o : op) := match o with OCreateMetadata => true | _ => false end.
Definition is_mint (o : op) := match o with OMint _ _ _ => true | _ => false end.
Definition is_burn (o : op) := match o with OBurn _ _ => true | _ => false end.
Definition is_swap_op (o : op) := match o with OSwap _ => true | _ => false end.

Record only (o : op) (w w' : world) : Prop := {
  on_psur : is_psur o = false -> p_partner_surplus (w_pool w') = p_partner_surplus (w_pool w);
  on_csur : is_csur o = false -> p_creator_surplus (w_pool w') = p_creator_surplus (w_pool w);
  on_prsur : is_prot o = false -> p_protocol_surplus (w_pool w') = p_protocol_surplus (w_pool w);
  on_mfee : is_mfee o = false -> p_mig_fee_status (w_pool w') = p_mig_fee_status (w_pool w);
  on_left : is_left o = false -> p_leftover (w_pool w') = p_leftover (w_pool w);
  on_cbits : is_pcf o = false -> is_prcf o = false ->
     p_creation_bits (w_pool w') = p_creation_bits (w_pool w);
  on_creator : is_transfer o = false -> p_creator (w_pool w') = p_creator (w_pool w);
  on_progress : is_swap_op o = false -> is_locker o = false -> is_migrate o = false ->
     p_progress (w_pool w') = p_progress (w_pool w);
  on_operators : is_operator o = false -> w_operators w' = w_operators w;
  on_lp : is_v1 o = false -> w_lp w' = w_lp w + net TLp (moved w o);
  on_lp0 : is_lp o = false -> net TLp (moved w o) = 0;
  on_meta : is_meta o = false -> is_v1 o = false -> is_lp o = false -> w_meta w' = w_meta w;
  on_supply : is_migrate o = false -> is_mint o = false -> is_burn o = false -> w_supply w' = w_supply w
}.

Lemma skipn_exact {A} (l m : list A) : skipn (length l) (l ++ m) = m.
Proof. induction l; simpl; auto. Qed.
Lemma moved_eff w o w' p l : exec w o = Ok w' -> eff w w' p l -> moved w o = l.
Proof.
  intros H E. unfold moved, step. rewrite H, (ef_log _ _ _ _ E). apply skipn_exact.
Qed.

Lemma net_lp_app a b : net TLp (a ++ b) = net TLp a + net TLp b. Proof. apply net_app. Qed.
Lemma net_lp_cond (b : bool) x : net TLp x = 0 -> net TLp (if b then x else []) = 0.
Proof. destruct b; auto. Qed.
Lemma net_lp_burned b : net TLp (burned b) = 0.
Proof. unfold burned. destruct (_ <? _); reflexivity. Qed.

Lemma rest_only o w w' p l : exec w o = Ok w' -> eff w w' p l -> rest_same w w' -> net TLp l = 0 ->
  is_v1 o = false ->
  w_lp w' = w_lp w + net TLp (moved w o) /\ net TLp (moved w o) = 0.
Proof.
  intros H E R N V. rewrite (moved_eff _ _ _ _ _ H E), N. split; auto. rewrite (rs_lp _ _ R). lia.
Qed.

(* an effect that only sets fields of the pool and moves no LP tokens *)
Ltac plain H0 E R :=
  let P := fresh "P" in let N1 := fresh "N" in let N2 := fresh "N" in
  pose proof (ef_pool _ _ _ _ E) as P;
  destruct (rest_only _ _ _ _ _ H0 E R ltac:(auto) eq_refl) as (N1 & N2);
  constructor; intros; rewrite ?P; try reflexivity; try discriminate;
  solve [exact N1 | exact N2 | apply (rs_operators _ _ R) | apply (rs_meta _ _ R)
        | apply (rs_supply _ _ R)].

Lemma exec_only w o w' : Inv w -> exec w o = Ok w' -> only o w w'.
Proof.
  intros I H. pose proof (exec_args _ _ _ H) as A. pose proof H as H0.
  destruct o; try (unfold exec in H; rewrite A in H; cbn [require bind] in H).
  - destruct (swap_eff _ _ _ I H0) as (fm & r & num & fee & gross & pf & cf & cur & p1 & SE & _ & _ & E & R).
    destruct (swap_mono _ _ _ I H0) as (_ & _ & CR & _).
    destruct (se_pool _ _ _ _ _ _ _ _ _ _ _ SE) as (p2 & AP & _ & _ & C).
    destruct AP as [_ _ _ _ _ _ _ _ _ _ _ _ _ _ _ _ _ _ _ SR].
    destruct SR as [s1 s2 s3 s4 s5 s6 s7 s8 s9 s10 s11 s12 s13].
    assert (NL : net TLp (swap_log a fm r) = 0).
    { clear. unfold swap_log, fee_token. destruct (sa_dir a), (sa_referral a), (fm_on_base fm); reflexivity. }
    destruct (rest_only _ _ _ _ _ H0 E R NL eq_refl) as (N1 & N2).
    assert (X : p_partner_surplus (w_pool w') = p_partner_surplus (w_pool w)
      /\ p_creator_surplus (w_pool w') = p_creator_surplus (w_pool w)
      /\ p_protocol_surplus (w_pool w') = p_protocol_surplus (w_pool w)
      /\ p_mig_fee_status (w_pool w') = p_mig_fee_status (w_pool w)
      /\ p_leftover (w_pool w') = p_leftover (w_pool w)
      /\ p_creation_bits (w_pool w') = p_creation_bits (w_pool w)).
    { destruct C as [(_ & ->)|(_ & _ & ->)]; simpl; auto 10. }
    destruct X as (X1 & X2 & X3 & X4 & X5 & X6).
    constructor; intros; try discriminate; auto; destruct R; auto.
  - apply partner_eff in H. destruct H as (_ & E & R). plain H0 E R.
  - apply creator_eff in H. destruct H as (_ & E & R). plain H0 E R.
  - simpl in A. apply andb_true_iff in A. destruct A as (A1 & A2). apply u64b_ok in A1, A2.
    destruct A1 as (A1 & _), A2 as (A2 & _).
    apply (protocol_eff _ _ _ _ _ I A1 A2) in H. cbv zeta in H.
    destruct H as (_ & p' & E & R & a1 & b1 & a2 & b2 & _ & _ & _ & _ & _ & _ & P').
    pose proof (ef_pool _ _ _ _ E) as P.
    destruct (rest_only _ _ _ _ _ H0 E R) as (N1 & N2); auto.
    { rewrite net_lp_app, !net_lp_cond by reflexivity. reflexivity. }
    rewrite P' in P.
    constructor; intros; rewrite ?P; try discriminate; auto;
    try (destruct (_ && _); reflexivity); destruct R; auto.
  - simpl in A. apply u64b_ok in A. destruct A as (A & _).
    apply (zap_eff _ _ _ _ _ _ _ I A) in H. cbv zeta in H.
    destruct H as (_ & _ & _ & p' & E & R & _ & a1 & b1 & _ & _ & _ & P').
    pose proof (ef_pool _ _ _ _ E) as P.
    destruct (rest_only _ _ _ _ _ H0 E R) as (N1 & N2); auto.
    { destruct base; reflexivity. }
    rewrite P' in P.
    constructor; intros; rewrite ?P; try discriminate; auto;
    try (destruct base; [|destruct (_ && _)]; reflexivity); destruct R; auto.
  - apply partner_surplus_eff in H; auto. destruct H as (_ & _ & _ & E & R). plain H0 E R.
  - apply creator_surplus_eff in H; auto. destruct H as (_ & _ & _ & E & R). plain H0 E R.
  - apply migration_fee_eff in H; auto.
    destruct H as (_ & R & [(_ & _ & B & E)|(_ & _ & B & E)]); plain H0 E R.
  - apply leftover_eff in H; auto. destruct H as (_ & _ & _ & E & R). plain H0 E R.
  - apply partner_cf_eff in H; auto. destruct H as (_ & _ & B & E & R). plain H0 E R.
  - apply protocol_cf_eff in H; auto. cbv zeta in H. destruct H as (_ & E & R).
    pose proof (ef_pool _ _ _ _ E) as P.
    destruct (rest_only _ _ _ _ _ H0 E R) as (N1 & N2); auto.
    { apply net_lp_cond. reflexivity. }
    constructor; intros; rewrite ?P; try discriminate; auto;
    try (destruct (negb _); reflexivity); destruct R; auto.
  - apply transfer_creator_eff in H. destruct H as (_ & _ & _ & _ & E & R). plain H0 E R.
  - apply locker_eff in H. destruct H as (P1 & E & _ & SU & MI & UP & ME & LP & PO & AD & OP).
    pose proof (ef_pool _ _ _ _ E) as P. pose proof (moved_eff _ _ _ _ _ H0 E) as M.
    constructor; intros; rewrite ?P, ?M; try discriminate; auto. simpl. rewrite LP. unfold flow. simpl. lia.
  - apply metadata_eff in H. destruct H as (_ & MM & E & ME & SU & MI & UP & ES & LP & PO & AD & OP).
    pose proof (ef_pool _ _ _ _ E) as P. pose proof (moved_eff _ _ _ _ _ H0 E) as M.
    constructor; intros; rewrite ?P, ?M; try discriminate; auto. simpl. rewrite LP. lia.
  - apply migrate_v1_eff in H.
    destruct H as (m & m' & fb & fq & eb & eq & b & mb & _ & P2 & _ & _ & _ & E & _ & _ & SU & LP & ME
      & _ & MI & ES & UP & PO & AD & OP).
    pose proof (ef_pool _ _ _ _ E) as P. pose proof (moved_eff _ _ _ _ _ H0 E) as M.
    constructor; intros; rewrite ?P, ?M; try discriminate; auto.
    rewrite net_lp_app, net_lp_burned. reflexivity.
  - apply migrate_v2_eff in H.
    destruct H as (fb & fq & eb & eq & l2 & b & mb & h & _ & P2 & _ & _ & L2 & _ & _ & E & _ & _ & SU & LP & ME
      & MI & ES & UP & AD & OP).
    pose proof (ef_pool _ _ _ _ E) as P. pose proof (moved_eff _ _ _ _ _ H0 E) as M.
    assert (N2 : net TLp l2 = 0) by (destruct L2 as [-> |(-> & _)]; reflexivity).
    assert (N : net TLp (moved w (OMigrateV2 x now)) = 0).
    { rewrite M, !net_lp_app, net_lp_burned, N2. reflexivity. }
    constructor; intros; rewrite ?P; try discriminate; auto. rewrite N, LP. lia.
  - apply lock_lp_eff in H.
    destruct H as (m & m' & a & P3 & MM & M' & MP & _ & _ & _ & _ & E & LP & SU & MI & UP & ES & PO & AD & OP).
    pose proof (ef_pool _ _ _ _ E) as P. pose proof (moved_eff _ _ _ _ _ H0 E) as M.
    constructor; intros; rewrite ?P, ?M; try discriminate; auto. simpl. rewrite LP. unfold flow. simpl. lia.
  - apply claim_lp_eff in H.
    destruct H as (m & m' & a & P3 & MM & M' & MP & _ & _ & _ & _ & E & LP & SU & MI & UP & ES & PO & AD & OP).
    pose proof (ef_pool _ _ _ _ E) as P. pose proof (moved_eff _ _ _ _ _ H0 E) as M.
    constructor; intros; rewrite ?P, ?M; try discriminate; auto. simpl. rewrite LP. unfold flow. simpl. lia.
  - unfold create_operator in H. apply bind_ok in H. destruct H as (u & _ & H).
    apply bind_ok in H. destruct H as (u1 & _ & H). apply bind_ok in H. destruct H as (u2 & _ & H).
    apply Ok_inj in H.
    assert (M : moved w (OCreateOperator signer addr perm) = []).
    { unfold moved, step. rewrite H0. subst w'. simpl. apply skipn_all. }
    constructor; intros; rewrite ?M; subst w'; try discriminate; auto. simpl. lia.
  - unfold close_operator in H. apply bind_ok in H. destruct H as (u & _ & H).
    apply bind_ok in H. destruct H as (u1 & _ & H).
    apply Ok_inj in H.
    assert (M : moved w (OCloseOperator signer addr) = []).
    { unfold moved, step. rewrite H0. subst w'. simpl. apply skipn_all. }
    constructor; intros; rewrite ?M; subst w'; try discriminate; auto. simpl. lia.
  - apply recv_base_eff in H. destruct H as (E & R). plain H0 E R.
  - apply recv_quote_eff in H. destruct H as (E & R). plain H0 E R.
  - apply Ok_inj in H.
    assert (M : moved w (ODonateSol from a) = [mkTransfer TSol (PKey from) PPool a]).
    { unfold moved, step. rewrite H0. subst w'. simpl. apply skipn_exact. }
    constructor; intros; rewrite ?M; subst w'; try discriminate; auto. simpl. unfold flow. simpl. lia.
  - apply bind_ok in H. destruct H as (u & _ & H). apply bind_ok in H. destruct H as (t & _ & H).
    apply Ok_inj in H.
    assert (M : moved w (OMint signer to a) = [mkTransfer TBase PMint (PKey to) a]).
    { unfold moved, step. rewrite H0. subst w'. simpl. apply skipn_exact. }
    constructor; intros; rewrite ?M; subst w'; try discriminate; auto. simpl. unfold flow. simpl. lia.
  - apply bind_ok in H. destruct H as (u & _ & H). apply Ok_inj in H.
    assert (M : moved w (OBurn signer a) = [mkTransfer TBase (PKey signer) PMint a]).
    { unfold moved, step. rewrite H0. subst w'. simpl. apply skipn_exact. }
    constructor; intros; rewrite ?M; subst w'; try discriminate; auto. simpl. unfold flow. simpl. lia.
Qed.
