(** * Who may take funds, operator permissions, and the burn at migration: C39, C40, C51. *)
From Coq Require Import ZArith QArith List Bool Lia ZifyBool Lqa.
From Verif Require Import Base MathModel CurveModel FeeModel ConfigModel PoolModel TxModel
  SystemModel Spec SpecHist Lib CurveProofs CurveLoops Potential CalcProofs ConfigProofs FeeProofs
  SwapProofs InvProofs InvOps InvReach Effects Frame Bounds PropSafe PropFees Only PropPay PropLp
  Fixtures FixturesReach.
Import ListNotations.
Open Scope Z_scope.
#[local] Arguments Z.pow : simpl never.
#[local] Arguments Z.testbit : simpl never.

(* membership in a list of at most one element *)
Ltac in1 IN := first [destruct IN as [<-|[]] | destruct IN].

(** ** C39 *)

(** What may cause a payment out of the pool: a swap (its amounts are pinned by C01-C03), the
    signature of the fee claimer or of the current creator, the signature of an operator with the
    permission to claim (payment to the treasury only) or to zap (payment to the operator, to be
    swapped and forwarded in the same transaction), or a destination fixed by the config: the
    migrated pool, the burn, the vesting escrow, the leftover receiver, the owners of LP tokens. *)
Definition authorised (w : world) (o : op) (t : transfer) : Prop :=
  (exists a, o = OSwap a
     /\ (t_to t = PKey (sa_user a) \/ exists k, sa_referral a = Some k /\ t_to t = PKey k))
  \/ signer_of o = Some (c_fee_claimer (w_config w))
  \/ signer_of o = Some (p_creator (w_pool w))
  \/ (exists s, signer_of o = Some s /\ permitted w s 0 /\ t_to t = PTreasury)
  \/ (exists s, signer_of o = Some s /\ permitted w s 1 /\ t_to t = PKey s)
  \/ (p_progress (w_pool w) = 2 /\ (t_to t = PDamm \/ t_to t = PMint))
  \/ (p_progress (w_pool w) = 1 /\ t_to t = PEscrow)
  \/ (p_progress (w_pool w) = 3
      /\ (t_to t = PKey (c_leftover_receiver (w_config w)) /\ t_token t = TBase
          \/ t_token t = TLp /\ exists k, (t_to t = PKey k \/ t_to t = PLock k)
             /\ (k = c_fee_claimer (w_config w) \/ k = p_creator (w_pool w)))).

Theorem C39_every_payment_is_authorised : forall w o w' t, reachable w -> exec w o = Ok w' ->
  In t (moved w o) -> t_from t = PPool -> authorised w o t.
Proof.
  intros w o w' t R H IN FR. pose proof (reachable_inv _ R) as I.
  pose proof (exec_args _ _ _ H) as A. pose proof H as H0. unfold authorised.
  destruct o; try (unfold exec in H; rewrite A in H; cbn [require bind] in H).
  - left. exists a. split; auto.
    destruct (swap_eff _ _ _ I H0) as (fm & r & num & fee & gross & pf & cf & cur & p1 & _ & _ & _ & E & _).
    rewrite (moved_eff _ _ _ _ _ H0 E) in IN. unfold swap_log in IN.
    destruct IN as [<-|[<-|IN]]; [discriminate FR|auto|].
    destruct (sa_referral a) as [k|]; in1 IN. right. exists k. auto.
  - apply partner_eff in H. destruct H as (-> & _). right. left. reflexivity.
  - apply creator_eff in H. destruct H as (-> & _). do 2 right. left. reflexivity.
  - simpl in A. apply andb_true_iff in A. destruct A as (A1 & A2). apply u64b_ok in A1, A2.
    destruct A1 as (A1 & _), A2 as (A2 & _).
    apply (protocol_eff _ _ _ _ _ I A1 A2) in H. cbv zeta in H.
    destruct H as (PE & p' & E & _). rewrite (moved_eff _ _ _ _ _ H0 E) in IN.
    do 3 right. left. exists signer. split; [reflexivity|]. split; [exact PE|].
    apply in_app_iff in IN. destruct IN as [IN|IN].
    + destruct (0 <? _) in IN; in1 IN; reflexivity.
    + destruct (0 <? _) in IN; in1 IN; reflexivity.
  - simpl in A. apply u64b_ok in A. destruct A as (A & _).
    apply (zap_eff _ _ _ _ _ _ _ I A) in H. cbv zeta in H.
    destruct H as (PE & _ & _ & p' & E & _). rewrite (moved_eff _ _ _ _ _ H0 E) in IN.
    do 4 right. left. exists signer. split; [reflexivity|]. split; [exact PE|].
    destruct base; in1 IN; reflexivity.
  - apply partner_surplus_eff in H; auto. destruct H as (-> & _). right. left. reflexivity.
  - apply creator_surplus_eff in H; auto. destruct H as (-> & _). do 2 right. left. reflexivity.
  - apply migration_fee_eff in H; auto.
    destruct H as (_ & _ & [(_ & -> & _)|(_ & -> & _)]); [right; left|do 2 right; left]; reflexivity.
  - apply leftover_eff in H; auto. destruct H as (P3 & _ & _ & E & _).
    rewrite (moved_eff _ _ _ _ _ H0 E) in IN. destruct IN as [<-|[]].
    do 7 right. split; auto.
  - apply partner_cf_eff in H; auto. destruct H as (-> & _). right. left. reflexivity.
  - apply protocol_cf_eff in H; auto. cbv zeta in H. destruct H as (PE & E & _).
    rewrite (moved_eff _ _ _ _ _ H0 E) in IN.
    do 3 right. left. exists signer. split; [reflexivity|]. split; [exact PE|].
    destruct (0 <? _) in IN; in1 IN; reflexivity.
  - apply transfer_creator_eff in H. destruct H as (_ & _ & _ & _ & E & _).
    rewrite (moved_eff _ _ _ _ _ H0 E) in IN. destruct IN.
  - apply locker_eff in H. destruct H as (P1 & E & _).
    rewrite (moved_eff _ _ _ _ _ H0 E) in IN. destruct IN as [<-|[]]. do 6 right. left. auto.
  - apply metadata_eff in H. destruct H as (_ & _ & E & _).
    rewrite (moved_eff _ _ _ _ _ H0 E) in IN. destruct IN.
  - apply migrate_v1_eff in H.
    destruct H as (m & m' & fb & fq & eb & eq & b & mb & _ & P2 & _ & _ & _ & E & _).
    rewrite (moved_eff _ _ _ _ _ H0 E) in IN. do 5 right. left. split; auto.
    unfold burned in IN. destruct IN as [<-|[<-|IN]]; auto. destruct (0 <? b); in1 IN; auto.
  - apply migrate_v2_eff in H.
    destruct H as (fb & fq & eb & eq & l2 & b & mb & h & _ & P2 & _ & _ & L2 & _ & _ & E & _).
    rewrite (moved_eff _ _ _ _ _ H0 E) in IN. do 5 right. left. split; auto.
    unfold burned in IN. cbn [app] in IN. destruct IN as [<-|[<-|IN]]; auto. apply in_app_iff in IN. destruct IN as [IN|IN].
    + destruct L2 as [-> |(-> & _)]; [destruct IN|]. destruct IN as [<-|[<-|IN]]; [auto|auto|destruct IN].
    + destruct (0 <? b); in1 IN; auto.
  - destruct (C25_amounts w w' owner R) as (L & _). destruct (L H0) as (m & _ & O & M).
    rewrite M in IN. destruct IN as [<-|[]]. apply lock_lp_eff in H.
    destruct H as (_ & _ & _ & P3 & _). do 7 right. split; auto. right. split; [reflexivity|].
    exists owner. auto.
  - destruct (C25_amounts w w' owner R) as (_ & L). destruct (L H0) as (m & _ & O & M).
    rewrite M in IN. destruct IN as [<-|[]]. apply claim_lp_eff in H.
    destruct H as (_ & _ & _ & P3 & _). do 7 right. split; auto. right. split; [reflexivity|].
    exists owner. auto.
  - unfold create_operator in H. apply bind_ok in H. destruct H as (u & _ & H).
    apply bind_ok in H. destruct H as (u1 & _ & H). apply bind_ok in H. destruct H as (u2 & _ & H).
    apply Ok_inj in H. unfold moved, step in IN. rewrite H0 in IN. subst w'. simpl in IN.
    rewrite skipn_all in IN. destruct IN.
  - unfold close_operator in H. apply bind_ok in H. destruct H as (u & _ & H).
    apply bind_ok in H. destruct H as (u1 & _ & H).
    apply Ok_inj in H. unfold moved, step in IN. rewrite H0 in IN. subst w'. simpl in IN.
    rewrite skipn_all in IN. destruct IN.
  - apply recv_base_eff in H. destruct H as (E & _). rewrite (moved_eff _ _ _ _ _ H0 E) in IN.
    destruct IN as [<-|[]]. discriminate FR.
  - apply recv_quote_eff in H. destruct H as (E & _). rewrite (moved_eff _ _ _ _ _ H0 E) in IN.
    destruct IN as [<-|[]]. discriminate FR.
  - apply Ok_inj in H. unfold moved, step in IN. rewrite H0 in IN. subst w'. simpl in IN.
    rewrite skipn_exact in IN. destruct IN as [<-|[]]. discriminate FR.
  - apply bind_ok in H. destruct H as (u & _ & H). apply bind_ok in H. destruct H as (x & _ & H).
    apply Ok_inj in H. unfold moved, step in IN. rewrite H0 in IN. subst w'. simpl in IN.
    rewrite skipn_exact in IN. destruct IN as [<-|[]]. discriminate FR.
  - apply bind_ok in H. destruct H as (u & _ & H).
    apply Ok_inj in H. unfold moved, step in IN. rewrite H0 in IN. subst w'. simpl in IN.
    rewrite skipn_exact in IN. destruct IN as [<-|[]]. discriminate FR.
Qed.

Lemma share_nonneg w o t : Inv w -> t = TBase \/ t = TQuote -> is_ok (exec w o) = true ->
  0 <= partner_share t w o /\ 0 <= creator_share t w o /\ 0 <= protocol_fee t w o.
Proof.
  intros I T H. destruct o; try (unfold partner_share, creator_share, trading_fee, protocol_fee, receipt;
    rewrite Z.mul_0_l, Zdiv_0_l; lia).
  destruct (exec w (OSwap a)) as [w'|] eqn:X; [|discriminate H].
  destruct (swap_fees _ _ _ I X t) as (_ & _ & _ & _ & _ & N & N' & _).
  pose proof (created_cfg_ok _ (iv_created _ I)) as K. pose proof (ok_ctf _ K) as CP.
  unfold partner_share, creator_share.
  assert (0 <= trading_fee t w (OSwap a) * c_creator_trading_fee_pct (w_config w) / 100
          <= trading_fee t w (OSwap a)).
  { split; [apply Z.div_pos; nia|]. apply Z.div_le_upper_bound; nia. }
  lia.
Qed.

(** The partner's entitlements shrink only by an instruction the fee claimer signed; the creator's
    only by one the current creator signed; the protocol's only by one that an operator with a
    claiming permission signed. *)
Theorem C39_partner_funds_need_fee_claimer : forall w o w', reachable w -> exec w o = Ok w' ->
  (exists t, (t = TBase \/ t = TQuote) /\ partner_fees t (w_pool w') < partner_fees t (w_pool w))
  \/ p_partner_surplus (w_pool w') <> p_partner_surplus (w_pool w)
  \/ Z.testbit (p_mig_fee_status (w_pool w')) 2 <> Z.testbit (p_mig_fee_status (w_pool w)) 2
  \/ Z.testbit (p_creation_bits (w_pool w')) 1 <> Z.testbit (p_creation_bits (w_pool w)) 1 ->
  signer_of o = Some (c_fee_claimer (w_config w)).
Proof.
  intros w o w' R H C. pose proof (reachable_inv _ R) as I. pose proof (exec_args _ _ _ H) as A.
  pose proof (exec_only _ _ _ I H) as ON.
  destruct C as [(t & T & C)|[C|[C|C]]].
  - destruct (fee_step w o t I T) as (F & _). rewrite (step_ok _ _ _ H) in F.
    destruct (share_nonneg w o t I T) as (N & _). { rewrite H. reflexivity. }
    unfold partner_claims in F. destruct o; try lia.
    unfold exec in H. rewrite A in H. cbn [require bind] in H. apply partner_eff in H.
    destruct H as (-> & _). reflexivity.
  - destruct (is_psur o) eqn:K; [|exfalso; apply C, (on_psur _ _ _ ON K)].
    destruct o; try discriminate K. unfold exec in H. rewrite A in H. cbn [require bind] in H.
    apply partner_surplus_eff in H; auto. destruct H as (-> & _). reflexivity.
  - destruct (is_mfee o) eqn:K; [|exfalso; apply C; rewrite (on_mfee _ _ _ ON K); reflexivity].
    destruct o; try discriminate K. unfold exec in H. rewrite A in H. cbn [require bind] in H.
    apply migration_fee_eff in H; auto. destruct H as (_ & _ & [(_ & -> & _)|(_ & _ & B & E)]); [reflexivity|].
    exfalso. apply C. rewrite (ef_pool _ _ _ _ E). simpl. pose proof (iv_status _ I) as ST.
    destruct ST as [S|[S|[S|S]]]; rewrite S in *; try discriminate B; reflexivity.
  - destruct (is_pcf o) eqn:K.
    + destruct o; try discriminate K. unfold exec in H. rewrite A in H. cbn [require bind] in H.
      apply partner_cf_eff in H; auto. destruct H as (-> & _). reflexivity.
    + destruct (is_prcf o) eqn:K2; [|exfalso; apply C; rewrite (on_cbits _ _ _ ON K K2); reflexivity].
      destruct o; try discriminate K2. unfold exec in H. rewrite A in H. cbn [require bind] in H.
      apply protocol_cf_eff in H; auto. destruct H as (_ & E & _). exfalso. apply C.
      rewrite (ef_pool _ _ _ _ E). pose proof (iv_cbits _ I) as ST.
      destruct ST as [S|[S|[S|S]]]; rewrite S; simpl; rewrite ?S; reflexivity.
Qed.

Theorem C39_creator_funds_need_creator : forall w o w', reachable w -> exec w o = Ok w' ->
  (exists t, (t = TBase \/ t = TQuote) /\ creator_fees t (w_pool w') < creator_fees t (w_pool w))
  \/ p_creator_surplus (w_pool w') <> p_creator_surplus (w_pool w)
  \/ Z.testbit (p_mig_fee_status (w_pool w')) 1 <> Z.testbit (p_mig_fee_status (w_pool w)) 1
  \/ p_creator (w_pool w') <> p_creator (w_pool w) ->
  signer_of o = Some (p_creator (w_pool w)).
Proof.
  intros w o w' R H C. pose proof (reachable_inv _ R) as I. pose proof (exec_args _ _ _ H) as A.
  pose proof (exec_only _ _ _ I H) as ON.
  destruct C as [(t & T & C)|[C|[C|C]]].
  - destruct (fee_step w o t I T) as (_ & F & _). rewrite (step_ok _ _ _ H) in F.
    destruct (share_nonneg w o t I T) as (_ & N & _). { rewrite H. reflexivity. }
    unfold creator_claims in F. destruct o; try lia.
    unfold exec in H. rewrite A in H. cbn [require bind] in H. apply creator_eff in H.
    destruct H as (-> & _). reflexivity.
  - destruct (is_csur o) eqn:K; [|exfalso; apply C, (on_csur _ _ _ ON K)].
    destruct o; try discriminate K. unfold exec in H. rewrite A in H. cbn [require bind] in H.
    apply creator_surplus_eff in H; auto. destruct H as (-> & _). reflexivity.
  - destruct (is_mfee o) eqn:K; [|exfalso; apply C; rewrite (on_mfee _ _ _ ON K); reflexivity].
    destruct o; try discriminate K. unfold exec in H. rewrite A in H. cbn [require bind] in H.
    apply migration_fee_eff in H; auto. destruct H as (_ & _ & [(_ & _ & B & E)|(_ & -> & _)]); [|reflexivity].
    exfalso. apply C. rewrite (ef_pool _ _ _ _ E). simpl. pose proof (iv_status _ I) as ST.
    destruct ST as [S|[S|[S|S]]]; rewrite S in *; try discriminate B; reflexivity.
  - rewrite (C46_creator_only_changes_by_transfer _ _ _ R H C). reflexivity.
Qed.

Theorem C39_protocol_funds_need_operator : forall w o w', reachable w -> exec w o = Ok w' ->
  (exists t, (t = TBase \/ t = TQuote)
     /\ protocol_fees t (w_pool w') + migration_cut t (w_pool w')
        < protocol_fees t (w_pool w) + migration_cut t (w_pool w))
  \/ p_protocol_surplus (w_pool w') <> p_protocol_surplus (w_pool w)
  \/ Z.testbit (p_creation_bits (w_pool w')) 0 <> Z.testbit (p_creation_bits (w_pool w)) 0 ->
  exists s, signer_of o = Some s /\ (permitted w s 0 \/ permitted w s 1).
Proof.
  intros w o w' R H C. pose proof (reachable_inv _ R) as I. pose proof (exec_args _ _ _ H) as A.
  pose proof (exec_only _ _ _ I H) as ON.
  assert (PR : is_prot o = true -> exists s, signer_of o = Some s /\ (permitted w s 0 \/ permitted w s 1)).
  { clear C. intros K. destruct o; try discriminate K; exists signer; (split; [reflexivity|]);
    unfold exec in H; rewrite A in H; cbn [require bind] in H; simpl in A.
    - apply andb_true_iff in A. destruct A as (A1 & A2). apply u64b_ok in A1, A2.
      destruct A1 as (A1 & _), A2 as (A2 & _).
      apply (protocol_eff _ _ _ _ _ I A1 A2) in H. left. apply H.
    - apply u64b_ok in A. destruct A as (A & _). apply (zap_eff _ _ _ _ _ _ _ I A) in H. right. apply H. }
  destruct C as [(t & T & C)|[C|C]].
  - destruct (is_prot o) eqn:K; [auto|].
    destruct (fee_step w o t I T) as (_ & _ & F & _). rewrite (step_ok _ _ _ H) in F.
    destruct (share_nonneg w o t I T) as (_ & _ & N). { rewrite H. reflexivity. }
    pose proof (reachable_exec _ _ _ R H) as R1. pose proof (reachable_inv _ R1) as I1.
    assert (X : protocol_claims t w o = 0) by (destruct o; try discriminate K; reflexivity).
    assert (N2 : 0 <= cut t w o).
    { unfold cut, cut_at_migration. rewrite H. cbn [is_ok]. rewrite (step_ok _ _ _ H).
      pose proof (iv_nonneg _ I1) as FE. destruct o; try lia; destruct T as [-> | ->]; simpl; lia. }
    destruct (exec_frame _ _ _ I H) as (FR & _).
    assert (S : protocol_surplus_paid t w = protocol_surplus_paid t w').
    { unfold protocol_surplus_paid. rewrite (on_prsur _ _ _ ON K). destruct t; auto.
      destruct (_ =? 1) eqn:E; auto. rewrite (fr_config _ _ FR). f_equal.
      destruct (exec_frame _ _ _ I H) as (_ & MK). clear - MK I H E K.
      destruct (is_swap_op o) eqn:SW.
      - exfalso. destruct o; try discriminate SW.
        destruct (swap_eff _ _ _ I H) as (fm & r & num & fee & gross & pf & cf & cur & p1 & SE & _).
        pose proof (se_open _ _ _ _ _ _ _ _ _ _ _ SE) as OP. pose proof (iv_open _ I) as OO. apply (iv_complete _ I) in OP. specialize (OO OP). lia.
      - symmetry. destruct o; try discriminate SW; try (apply (sk_quote _ _ MK)). }
    lia.
  - destruct (is_prot o) eqn:K; [auto|]. exfalso. apply C, (on_prsur _ _ _ ON K).
  - destruct (is_prcf o) eqn:K.
    + destruct o; try discriminate K. unfold exec in H. rewrite A in H. cbn [require bind] in H.
      apply protocol_cf_eff in H; auto. destruct H as (PE & _). exists signer. auto.
    + destruct (is_pcf o) eqn:K2; [|exfalso; apply C; rewrite (on_cbits _ _ _ ON K2 K); reflexivity].
      destruct o; try discriminate K2. unfold exec in H. rewrite A in H. cbn [require bind] in H.
      apply partner_cf_eff in H; auto. destruct H as (_ & _ & B & E & _). exfalso. apply C.
      rewrite (ef_pool _ _ _ _ E). pose proof (iv_cbits _ I) as ST. simpl.
      destruct ST as [S|[S|[S|S]]]; rewrite S in *; try discriminate B; reflexivity.
Qed.

(** Pool A with operators: 60 may claim, 61 may zap, 62 may do both. *)
Definition opsA : list op := [OCreateOperator 99 60 1; OCreateOperator 99 61 2; OCreateOperator 99 62 3].
Example C39_case :
  let h := firstn 5 histA1 ++ opsA in
  let w := run wA h in
  initial wA /\ all_ok wA h = true
  /\ 0 < paid TBase w (OClaimProtocol 60 U64_MAX U64_MAX) + paid TQuote w (OClaimProtocol 60 U64_MAX U64_MAX)
  /\ 0 < paid TBase w (OClaimPartner 22 1 U64_MAX U64_MAX) + paid TQuote w (OClaimPartner 22 1 U64_MAX U64_MAX)
  /\ 0 < paid TBase w (OClaimCreator 44 1 U64_MAX U64_MAX) + paid TQuote w (OClaimCreator 44 1 U64_MAX U64_MAX)
  /\ forallb (fun o => negb (is_ok (exec w o)))
       [OClaimProtocol 61 U64_MAX U64_MAX; OClaimProtocol 22 U64_MAX U64_MAX;
        OClaimPartner 44 1 U64_MAX U64_MAX; OClaimCreator 22 1 U64_MAX U64_MAX] = true.
Proof. split; [exact initialA|]. vm_compute. repeat split; reflexivity. Qed.

(** ** C40 *)
Lemma find_filter ops a k :
  find_operator (filter (fun o => negb (fst o =? a)) ops) k
  = if k =? a then None else find_operator ops k.
Proof.
  induction ops as [|[x p] ops IH]; simpl; [destruct (k =? a); reflexivity|].
  destruct (x =? a) eqn:E; simpl.
  - rewrite IH. destruct (k =? a) eqn:K; auto. replace (x =? k) with false by lia. reflexivity.
  - destruct (x =? k) eqn:XK; [replace (k =? a) with false by lia; reflexivity|exact IH].
Qed.

(** Creating an operator account takes an admin's signature and a mask of known permissions, and
    gives exactly the permissions in the mask to exactly that address. *)
Theorem C40_create : forall w w' s a perm, exec w (OCreateOperator s a perm) = Ok w' ->
  In s (w_admins w) /\ 0 < perm < 4
  /\ (forall bit, ~ permitted w a bit)
  /\ (forall bit, permitted w' a bit <-> Z.testbit perm bit = true)
  /\ (forall k bit, k <> a -> (permitted w' k bit <-> permitted w k bit)).
Proof.
  intros w w' s a perm H. unfold exec in H. apply bind_ok in H. destruct H as (u0 & _ & H).
  unfold create_operator, check_admin in H.
  apply bind_ok in H. destruct H as (u & AD & H). apply require_ok in AD.
  apply bind_ok in H. destruct H as (u1 & NE & H). apply require_ok in NE.
  apply bind_ok in H. destruct H as (u2 & PE & H). apply require_ok in PE.
  apply Ok_inj in H. subst w'.
  apply existsb_exists in AD. destruct AD as (x & IN & E). apply Z.eqb_eq in E. subst x.
  split; [exact IN|]. split; [lia|].
  destruct (find_operator (w_operators w) a) eqn:F; [discriminate NE|].
  split. { intros bit (p & Q & _). congruence. }
  unfold permitted. simpl. split.
  - intros bit. rewrite Z.eqb_refl. split; [intros (p & Q & T); congruence|eauto].
  - intros k bit N. replace (a =? k) with false by lia. tauto.
Qed.

Theorem C40_bad_masks_rejected : forall w s a perm, perm <= 0 \/ 4 <= perm ->
  is_ok (exec w (OCreateOperator s a perm)) = false.
Proof.
  intros w s a perm P. destruct (exec w _) eqn:H; auto. exfalso.
  destruct (C40_create _ _ _ _ _ H) as (_ & X & _). lia.
Qed.

(** Only an admin's signature changes the operator accounts, and no instruction changes the admins. *)
Theorem C40_only_admins_change_permissions : forall w o w', reachable w -> exec w o = Ok w' ->
  w_admins w' = w_admins w
  /\ ((exists k bit, ~ (permitted w' k bit <-> permitted w k bit)) ->
      exists s, signer_of o = Some s /\ In s (w_admins w)).
Proof.
  intros w o w' R H. pose proof (reachable_inv _ R) as I.
  split. { apply (fr_admins _ _ (proj1 (exec_frame _ _ _ I H))). }
  intros (k & bit & D). destruct (is_operator o) eqn:K.
  - destruct o; try discriminate K; exists signer; (split; [reflexivity|]).
    + apply (C40_create _ _ _ _ _ H).
    + unfold exec in H. cbn [args_ok require bind] in H. unfold close_operator, check_admin in H.
      apply bind_ok in H. destruct H as (u & AD & _). apply require_ok in AD.
      apply existsb_exists in AD. destruct AD as (x & IN & E). apply Z.eqb_eq in E. subst x. exact IN.
  - exfalso. apply D. unfold permitted. rewrite (on_operators _ _ _ (exec_only _ _ _ I H) K). tauto.
Qed.

(** A closed account gives no permission until an admin creates it anew. *)
Theorem C40_closed : forall w w' s a, reachable w -> exec w (OCloseOperator s a) = Ok w' ->
  In s (w_admins w)
  /\ (forall k bit, k <> a -> (permitted w' k bit <-> permitted w k bit))
  /\ forall ops, (forall s' perm, ~ In (OCreateOperator s' a perm) ops) ->
       forall bit, ~ permitted (run w' ops) a bit.
Proof.
  intros w w' s a R H. pose proof (reachable_exec _ _ _ R H) as R1.
  unfold exec in H. cbn [args_ok require bind] in H.
  unfold close_operator, check_admin in H.
  apply bind_ok in H. destruct H as (u & AD & H). apply require_ok in AD.
  apply bind_ok in H. destruct H as (u1 & EX & H). apply Ok_inj in H.
  apply existsb_exists in AD. destruct AD as (x & IN & E). apply Z.eqb_eq in E. subst x.
  split; [exact IN|].
  assert (F : forall k, find_operator (w_operators w') k
              = if k =? a then None else find_operator (w_operators w) k).
  { intros k. subst w'. simpl. apply find_filter. }
  split.
  { intros k bit N. unfold permitted. rewrite F. replace (k =? a) with false by lia. tauto. }
  specialize (F a). rewrite Z.eqb_refl in F. clear H IN EX R w u u1 s.
  intros ops. revert w' R1 F. induction ops as [|o ops IH]; intros w R F NI bit; simpl.
  - intros (p & Q & _). congruence.
  - assert (R1 : reachable (step w o)) by (change (step w o) with (run w [o]); apply reachable_run; auto).
    apply IH; auto; [|intros s' perm X; apply (NI s' perm); right; exact X].
    destruct (exec w o) as [w'|e] eqn:H; [|rewrite (step_err _ _ _ H); exact F].
    rewrite (step_ok _ _ _ H). pose proof (reachable_inv _ R) as I.
    destruct (is_operator o) eqn:K;
      [|rewrite (on_operators _ _ _ (exec_only _ _ _ I H) K); exact F].
    destruct o; try discriminate K.
    + assert (NA : addr <> a) by (intros ->; apply (NI signer perm); left; reflexivity).
      unfold exec in H. apply bind_ok in H. destruct H as (u0 & _ & H). unfold create_operator in H.
      apply bind_ok in H. destruct H as (u & _ & H). apply bind_ok in H. destruct H as (u1 & _ & H).
      apply bind_ok in H. destruct H as (u2 & _ & H). apply Ok_inj in H. subst w'. simpl.
      replace (addr =? a) with false by lia. exact F.
    + unfold exec in H. cbn [args_ok require bind] in H. unfold close_operator in H.
      apply bind_ok in H. destruct H as (u & _ & H). apply bind_ok in H. destruct H as (u1 & _ & H).
      apply Ok_inj in H. subst w'. simpl. rewrite find_filter, F. destruct (a =? addr); reflexivity.
Qed.

(** The claiming instructions succeed exactly for operators with the claim permission; zapping
    needs the zap permission. *)
Theorem C40_operations : forall w s, reachable w ->
  (forall b q, u64ok b -> u64ok q ->
     is_ok (exec w (OClaimProtocol s b q)) = true <-> permitted w s 0)
  /\ (is_ok (exec w (OProtocolCreationFee s)) = true <-> permitted w s 0)
  /\ (forall m base al ok, is_ok (exec w (OZap s m base al ok)) = true -> permitted w s 1).
Proof.
  intros w s R. pose proof (reachable_inv _ R) as I. split; [|split].
  - intros b q (B & B') (Q & Q'). split; [|apply C17_protocol_can_claim; [auto|split; auto|split; auto]].
    intros H. destruct (exec w _) as [w'|] eqn:X; [|discriminate H].
    pose proof (exec_args _ _ _ X) as A. unfold exec in X. rewrite A in X. cbn [require bind] in X.
    apply (protocol_eff _ _ _ _ _ I B Q) in X. apply X.
  - split; [|intros P; apply (C17_creation_fee_can_be_claimed w 0 s R); exact P].
    intros H. destruct (exec w _) as [w'|] eqn:X; [|discriminate H].
    unfold exec in X. cbn [args_ok require bind] in X. apply protocol_cf_eff in X; auto. apply X.
  - intros m base al ok H. destruct (exec w _) as [w'|] eqn:X; [|discriminate H].
    pose proof (exec_args _ _ _ X) as A. unfold exec in X. rewrite A in X. cbn [require bind] in X.
    simpl in A. apply u64b_ok in A. destruct A as (A & _).
    apply (zap_eff _ _ _ _ _ _ _ I A) in X. apply X.
Qed.

Example C40_case :
  let w := run wA (histA1 ++ opsA) in
  reachable w
  /\ is_ok (exec w (OClaimProtocol 62 5 5)) = true /\ is_ok (exec w (OClaimProtocol 61 5 5)) = false
  /\ is_ok (exec w (OZap 62 5 false true true)) = true /\ is_ok (exec w (OZap 60 5 false true true)) = false
  /\ is_ok (exec w (OCloseOperator 99 62)) = true /\ is_ok (exec w (OCloseOperator 98 62)) = false
  /\ is_ok (exec (step w (OCloseOperator 99 62)) (OClaimProtocol 62 5 5)) = false.
Proof.
  split. { exists wA, (histA1 ++ opsA). split; [exact initialA|reflexivity]. }
  vm_compute. repeat split; reflexivity.
Qed.

(** ** C51 *)

(** The base fees owed by a pool, including the protocol's cut of the migration. *)
Definition base_fees_owed (p : pool) : Z :=
  p_partner_base p + p_protocol_base p + p_creator_base p + p_mig_base_fee p.
(** Base tokens an instruction sends to one place. *)
Definition sent_to (to : party -> bool) (w : world) (o : op) : Z :=
  fold_right Z.add 0 (map (fun t => match t_token t, t_from t with
    | TBase, PPool => if to (t_to t) then t_amount t else 0 | _, _ => 0 end) (moved w o)).
Definition to_mint (p : party) : bool := match p with PMint => true | _ => false end.
Definition to_damm (p : party) : bool := match p with PDamm => true | _ => false end.

Theorem C51_burn_at_migration : forall w o w', reachable w -> migrate_op o = true ->
  exec w o = Ok w' ->
  let b := sent_to to_mint w o in
  0 <= b /\ w_supply w' = w_supply w - b
  /\ w_bvault w' = w_bvault w - sent_to to_damm w o - b
  (* fees are never burned *)
  /\ base_fees_owed (w_pool w') <= w_bvault w'
  (* dynamic supply: all that is left is burned *)
  /\ (is_fixed_supply (w_config w) = false -> w_bvault w' = base_fees_owed (w_pool w'))
  (* fixed supply: up to the difference of the two supplies is burned *)
  /\ (is_fixed_supply (w_config w) = true ->
      b = Z.min (c_pre_supply (w_config w) - c_post_supply (w_config w))
            (w_bvault w - sent_to to_damm w o - base_fees_owed (w_pool w'))).
Proof.
  intros w o w' R M H. pose proof (reachable_inv _ R) as I.
  pose proof (reachable_exec _ _ _ R H) as R1. pose proof (reachable_inv _ R1) as I1.
  destruct (reachable_bounded _ R) as [BB _ _].
  pose proof (iv_base _ I1) as OW. pose proof (iv_nonneg _ I1) as NN1.
  pose proof (created_cfg_ok _ (iv_created _ I)) as K. pose proof (ok_post _ K) as PO.
  assert (BU : forall x, fold_right Z.add 0 (map (fun t => match t_token t, t_from t with
    | TBase, PPool => if to_mint (t_to t) then t_amount t else 0 | _, _ => 0 end) (burned x)) = Z.max 0 x
    /\ fold_right Z.add 0 (map (fun t => match t_token t, t_from t with
    | TBase, PPool => if to_damm (t_to t) then t_amount t else 0 | _, _ => 0 end) (burned x)) = 0
    /\ net TBase (burned x) = - Z.max 0 x).
  { intros x. unfold burned, net, flow. destruct (0 <? x) eqn:E; simpl; lia. }
  assert (SA : forall (f : transfer -> Z) l1 l2, fold_right Z.add 0 (map f (l1 ++ l2))
     = fold_right Z.add 0 (map f l1) + fold_right Z.add 0 (map f l2)).
  { intros f l1 l2. induction l1 as [|x l1 IH]; simpl; [reflexivity|]. rewrite IH. lia. }
  assert (GB : forall lf mb, get_burnable_amount (w_config w) lf = Ok mb -> lf <= U64_MAX ->
     (is_fixed_supply (w_config w) = false -> mb = lf)
     /\ (is_fixed_supply (w_config w) = true ->
         mb = Z.min (c_pre_supply (w_config w) - c_post_supply (w_config w)) lf
         /\ c_post_supply (w_config w) <= c_pre_supply (w_config w))).
  { intros lf mb G L. unfold get_burnable_amount in G. destruct (is_fixed_supply (w_config w)) eqn:FX.
    - apply bind_ok in G. destruct G as (mx & S & G). apply ssub_ok in S. apply Ok_inj in G.
      destruct (PO eq_refl) as (t & _ & _ & Q). split; [discriminate|]. intros _. lia.
    - cbn [bind] in G. apply Ok_inj in G. split; [|discriminate]. intros _. lia. }
  pose proof (exec_args _ _ _ H) as A. pose proof H as H0.
  destruct o; try discriminate M; unfold exec in H; rewrite A in H; cbn [require bind] in H.
  - apply migrate_v1_eff in H.
    destruct H as (m & m' & fb & fq & eb & eq & b & mb & _ & P2 & _ & _ & S & E & G & B & SU & _).
    destruct (split_ok _ _ _ _ _ _ I S) as (ib & iq & EB & _ & FB & _).
    pose proof (ef_pool _ _ _ _ E) as P. pose proof (ef_base _ _ _ _ E) as V.
    rewrite net_app in V. destruct (BU b) as (B1 & B2 & B3). rewrite B3 in V.
    unfold sent_to. rewrite (moved_eff _ _ _ _ _ H0 E), !SA, B1, B2.
    unfold base_fees_owed. unfold base_owed in OW. rewrite P in *. simpl in OW, NN1, V |- *.
    unfold flow in V. simpl in V.
    destruct (GB _ _ G) as (G1 & G2). { clear - BB NN1 EB FB. lia. }
    clear - G1 G2 B V SU OW NN1 EB FB.
    destruct (is_fixed_supply (w_config w)).
    + destruct (G2 eq_refl) as (G3 & G4). repeat split; try discriminate; lia.
    + rewrite (G1 eq_refl) in B. repeat split; try discriminate; lia.
  - apply migrate_v2_eff in H.
    destruct H as (fb & fq & eb & eq & l2 & b & mb & h & _ & P2 & _ & S & L2 & D1 & _ & E & G & B & SU & _).
    destruct (split_ok _ _ _ _ _ _ I S) as (ib & iq & EB & _ & FB & _).
    pose proof (ef_pool _ _ _ _ E) as P. pose proof (ef_base _ _ _ _ E) as V.
    rewrite !net_app in V. destruct (BU b) as (B1 & B2 & B3). rewrite B3 in V.
    unfold sent_to. rewrite (moved_eff _ _ _ _ _ H0 E), !SA, B1, B2.
    assert (L2' : fold_right Z.add 0 (map (fun t => match t_token t, t_from t with
        | TBase, PPool => if to_mint (t_to t) then t_amount t else 0 | _, _ => 0 end) l2) = 0
      /\ fold_right Z.add 0 (map (fun t => match t_token t, t_from t with
        | TBase, PPool => if to_damm (t_to t) then t_amount t else 0 | _, _ => 0 end) l2) = - net TBase l2
      /\ net TBase l2 <= 0).
    { destruct L2 as [->|(-> & Q & _)]; unfold net, flow; simpl; lia. }
    destruct L2' as (M1 & M2 & M3). rewrite M1, M2.
    unfold base_fees_owed. unfold base_owed in OW. rewrite P in *. simpl in OW, NN1, V |- *.
    unfold flow in V. simpl in V. fold (net TBase l2) in *. 
    destruct (GB _ _ G) as (G1 & G2). { clear - BB NN1 D1 M3. lia. }
    clear - G1 G2 B V SU OW NN1 EB FB D1 M3.
    destruct (is_fixed_supply (w_config w)).
    + destruct (G2 eq_refl) as (G3 & G4). repeat split; try discriminate; lia.
    + rewrite (G1 eq_refl) in B. repeat split; try discriminate; lia.
Qed.

(** A fixed-supply token never has fewer than the post-migration supply in existence, unless holders
    destroy their own tokens. *)
Theorem C51_supply_floor : forall w0 ops, initial w0 -> is_fixed_supply (w_config w0) = true ->
  let w := run w0 ops in
  let remaining := w_supply w + total holder_burn w0 ops in
  c_post_supply (w_config w) <= remaining
  /\ (p_progress (w_pool w) <> 3 -> c_pre_supply (w_config w) <= remaining).
Proof.
  assert (X : forall ops w0 n, reachable w0 -> is_fixed_supply (w_config w0) = true ->
    c_post_supply (w_config w0) <= w_supply w0 + n
      /\ (p_progress (w_pool w0) <> 3 -> c_pre_supply (w_config w0) <= w_supply w0 + n) ->
    let w := run w0 ops in
    let remaining := w_supply w + (n + total holder_burn w0 ops) in
    c_post_supply (w_config w) <= remaining
      /\ (p_progress (w_pool w) <> 3 -> c_pre_supply (w_config w) <= remaining)).
  { induction ops as [|o ops IH]; intros w0 n R FX J; simpl; [rewrite Z.add_0_r; exact J|].
    rewrite (Z.add_assoc n). apply IH.
    { change (step w0 o) with (run w0 [o]). apply reachable_run; auto. }
    { change (step w0 o) with (run w0 [o]).
      rewrite (fr_config _ _ (run_frame [o] w0 (reachable_inv _ R))). exact FX. }
    unfold holder_burn.
    destruct (exec w0 o) as [w'|] eqn:H;
      [|rewrite (step_err _ _ _ H); destruct o; cbn [is_ok]; rewrite ?Z.add_0_r; exact J].
    rewrite (step_ok _ _ _ H). cbn [is_ok]. pose proof (reachable_inv _ R) as I.
    pose proof (reachable_exec _ _ _ R H) as R1. pose proof (reachable_inv _ R1) as I1.
    destruct (exec_frame _ _ _ I H) as (FR & _). rewrite (fr_config _ _ FR).
    destruct J as (J1 & J2). pose proof (pm_progress _ _ (fr_pool _ _ FR)) as PM.
    pose proof (iv_progress _ I) as PR. pose proof (iv_progress _ I1) as PR1.
    destruct (migrate_op o) eqn:MO.
    - destruct (C51_burn_at_migration _ _ _ R MO H) as (B0 & SU & _ & _ & _ & FB). specialize (FB FX).
      replace (match o with OBurn _ a => a | _ => 0 end) with 0 by (destruct o; try discriminate MO; reflexivity).
      assert (P23 : p_progress (w_pool w0) = 2 /\ p_progress (w_pool w') = 3).
      { pose proof (exec_args _ _ _ H) as A.
        destruct o; try discriminate MO; unfold exec in H; rewrite A in H; cbn [require bind] in H.
        - apply migrate_v1_eff in H.
          destruct H as (m & m' & fb & fq & eb & eq & b & mb & _ & P2 & _ & _ & _ & E & _).
          rewrite (ef_pool _ _ _ _ E). auto.
        - apply migrate_v2_eff in H.
          destruct H as (fb & fq & eb & eq & l2 & b & mb & h & _ & P2 & _ & _ & _ & _ & _ & E & _).
          rewrite (ef_pool _ _ _ _ E). auto. }
      destruct P23 as (P2 & P3). specialize (J2 ltac:(lia)). split; [lia|]. intros; lia.
    - assert (SU : w_supply w0 <= w_supply w' + match o with OBurn _ a => a | _ => 0 end).
      { destruct (is_mint o) eqn:MI; [|destruct (is_burn o) eqn:BU].
        - destruct o; try discriminate MI. pose proof (exec_args _ _ _ H) as A. simpl in A.
          apply u64b_ok in A. destruct A as (A & _). unfold exec in H.
          apply bind_ok in H. destruct H as (u0 & _ & H).
          apply bind_ok in H. destruct H as (u & _ & H). apply bind_ok in H. destruct H as (x & S & H).
          apply Ok_inj in H. subst w'. apply sadd_ok in S. simpl. lia.
        - destruct o; try discriminate BU. unfold exec in H.
          apply bind_ok in H. destruct H as (u0 & _ & H). apply bind_ok in H. destruct H as (u & _ & H).
          apply Ok_inj in H. subst w'. simpl. lia.
        - rewrite (on_supply _ _ _ (exec_only _ _ _ I H)); auto.
          destruct o; try discriminate BU; lia. }
      split; [lia|]. intros Q. assert (p_progress (w_pool w0) <> 3) by lia. specialize (J2 H0). lia. }
  intros w0 ops H FX. apply (X ops w0 0); [exists w0, []; auto|exact FX|]. clear X.
  pose proof (initial_inv _ H) as I.
  pose proof (created_cfg_ok _ (iv_created _ I)) as K. destruct (ok_post _ K FX) as (t & _ & _ & Q).
  destruct H as (c & key & creator & payer & tt & slot & time & admins & operators & _ & _ & _ & H).
  unfold initialize_pool in H. do 3 (apply bind_ok in H; destruct H as (? & _ & H)).
  apply bind_ok in H. destruct H as (sp & S & H).
  do 4 (apply bind_ok in H; destruct H as (? & _ & H)). apply Ok_inj in H. subst w0. simpl in *.
  unfold get_initial_base_supply in S. rewrite FX in S. apply Ok_inj in S. lia.
Qed.

(** Pool A has a fixed supply: part of what is left is burned. Pool B has a dynamic supply. *)
Definition migA : op :=
  OMigrateV2 (mkExt true 20000000000000 40000000000 20000000000000 40000000000
                    (2 ^ 100) 1000000000 1000000000 true) 1700001000.
Example C51_case :
  (let h := histA1 ++ histA2 ++ firstn 4 histA3 in
   initial wA /\ all_ok wA (h ++ [migA]) = true /\ is_fixed_supply (w_config wA) = true
   /\ 0 < sent_to to_mint (run wA h) migA
   (* a holder burns *)
   /\ total holder_burn wA (histA1 ++ [OBurn 9 5000]) = 5000)
  /\ (let h := firstn 2 histB in
      initial wB /\ all_ok wB histB = true /\ is_fixed_supply (w_config wB) = false
      /\ 0 < sent_to to_mint (run wB h) (OMigrateV1 true 100001)).
Proof.
  split; (split; [first [exact initialA|exact initialB]|]); vm_compute; repeat split; reflexivity.
Qed.

Print Assumptions C39_every_payment_is_authorised.
Print Assumptions C39_partner_funds_need_fee_claimer.
Print Assumptions C39_creator_funds_need_creator.
Print Assumptions C39_protocol_funds_need_operator.
Print Assumptions C40_create.
Print Assumptions C40_bad_masks_rejected.
Print Assumptions C40_only_admins_change_permissions.
Print Assumptions C40_closed.
Print Assumptions C40_operations.
Print Assumptions C51_burn_at_migration.
Print Assumptions C51_supply_floor.
