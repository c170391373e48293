(** * C90: every instruction on a pool is accepted exactly when the rules allow it

    For each instruction other than a swap the conditions under which it is accepted are written out
    in terms of who signs, what the config says, the reserve, and what has been done to the pool
    before. They are both necessary and sufficient: nothing else can make an instruction fail (no
    shortage of funds, no rounding, no overflow, nothing other parties did), and nothing that
    violates one of them is ever accepted. *)
From Coq Require Import ZArith QArith List Bool Lia ZifyBool.
From Verif Require Import Base MathModel CurveModel FeeModel ConfigModel PoolModel TxModel
  SystemModel Fixtures Spec Lib CurveProofs CurveLoops Potential CalcProofs ConfigProofs FeeProofs
  SwapProofs InvProofs InvOps InvReach FixturesReach PropSwap Effects Frame Only Bounds PropSafe
  PropLife PropPay PropAccess PropLp PropMig PropOrder PropPart Live PropSell PropBuy PropMode PropExact.
Import ListNotations.
Open Scope Z_scope.
#[local] Arguments Z.pow : simpl never.
#[local] Arguments Z.testbit : simpl never.

(** ** Specification *)

(** An instruction of this kind has been executed successfully in the history [ops] of the pool that
    started as [w0]. *)
Definition happened (w0 : world) (ops : list op) (kind : op -> Prop) : Prop :=
  exists pre o post, ops = pre ++ o :: post /\ kind o /\ is_ok (exec (run w0 pre) o) = true.

Definition took_partner_surplus (o : op) : Prop := exists s to, o = OPartnerSurplus s to.
Definition took_creator_surplus (o : op) : Prop := exists s to, o = OCreatorSurplus s to.
Definition took_partner_migration_fee (o : op) : Prop := exists s to, o = OMigrationFee s to 0.
Definition took_creator_migration_fee (o : op) : Prop := exists s to, o = OMigrationFee s to 1.
Definition took_leftover (o : op) : Prop := o = OLeftover.
Definition took_partner_creation_fee (o : op) : Prop := exists s to, o = OPartnerCreationFee s to.
Definition locked_vesting_tokens (o : op) : Prop := o = OCreateLocker.
Definition made_metadata (o : op) : Prop := o = OCreateMetadata.
Definition migrated (o : op) : Prop :=
  (exists ok lp, o = OMigrateV1 ok lp) \/ (exists x now, o = OMigrateV2 x now).

(** The curve is complete: the reserve has reached the threshold. *)
Definition complete (w : world) : Prop := c_threshold (w_config w) <= p_quote (w_pool w).

(** The pool can be migrated: the curve is complete, the vesting tokens (if the config has any) are
    locked, and it has not been migrated yet. *)
Definition ready (w0 : world) (ops : list op) : Prop :=
  complete (run w0 ops)
  /\ (no_vesting (w_config w0) \/ happened w0 ops locked_vesting_tokens)
  /\ ~ happened w0 ops migrated.

Definition is_an_operator (w : world) (k : Z) : Prop := exists perm, In (k, perm) (w_operators w).

(** Protocol fees an operator can take out to swap them, at most [m] apart from the surplus share. *)
Definition to_zap (w : world) (m : Z) (base : bool) : Z :=
  let p := w_pool w in
  if base then Z.min m (p_protocol_base p + p_mig_base_fee p)
  else Z.min m (p_protocol_quote p + p_mig_quote_fee p)
       + (if (p_protocol_surplus p =? 0) && (c_threshold (w_config w) <=? p_quote p)
          then surplus_protocol (w_config w) (p_quote p) else 0).

(** [owner] still has LP tokens to be locked, or to be handed out. *)
Definition lp_to_lock (w : world) (owner : Z) : Prop := exists m, w_meta w = Some m /\
  ((owner = c_fee_claimer (w_config w) /\ m_partner_locked m <> 0 /\ m_partner_lock_done m = 0)
   \/ (owner = p_creator (w_pool w) /\ m_creator_locked m <> 0 /\ m_creator_lock_done m = 0)).
Definition lp_to_claim (w : world) (owner : Z) : Prop := exists m, w_meta w = Some m /\
  ((owner = c_fee_claimer (w_config w) /\ m_partner_liq m <> 0 /\ m_partner_claim_done m = 0)
   \/ (owner = p_creator (w_pool w) /\ m_creator_liq m <> 0 /\ m_creator_claim_done m = 0)).

(** The rules. *)
Definition allowed (w0 : world) (ops : list op) (o : op) : Prop :=
  let w := run w0 ops in
  let c := w_config w0 in
  let partner := c_fee_claimer c in
  let creator := p_creator (w_pool w) in
  match o with
  | OClaimPartner s _ _ _ => s = partner
  | OClaimCreator s _ _ _ => s = creator
  | OClaimProtocol s _ _ => permitted w s 0
  | OZap s m base listed swapped => permitted w s 1 /\ listed = true /\ swapped = true /\ 0 < to_zap w m base
  | OPartnerSurplus s _ => s = partner /\ complete w /\ ~ happened w0 ops took_partner_surplus
  | OCreatorSurplus s _ => s = creator /\ complete w /\ ~ happened w0 ops took_creator_surplus
  | OMigrationFee s _ f =>
      complete w
      /\ ((f = 0 /\ s = partner /\ ~ happened w0 ops took_partner_migration_fee)
          \/ (f = 1 /\ s = creator /\ ~ happened w0 ops took_creator_migration_fee))
  | OLeftover => happened w0 ops migrated /\ c_fixed_supply_flag c = 1 /\ ~ happened w0 ops took_leftover
  | OPartnerCreationFee s _ => s = partner /\ 0 < c_pool_creation_fee c
                               /\ ~ happened w0 ops took_partner_creation_fee
  | OProtocolCreationFee s => permitted w s 0
  | OTransferCreator s new =>
      s = creator /\ new <> s
      /\ (~ complete w
          \/ (happened w0 ops migrated
              /\ (c_migration_option c = 0 -> forall k, ~ lp_to_lock w k /\ ~ lp_to_claim w k)))
  | OCreateLocker => complete w /\ ~ no_vesting c /\ ~ happened w0 ops locked_vesting_tokens
  | OCreateMetadata => c_migration_option c = 0 /\ ~ happened w0 ops made_metadata
  | OMigrateV1 config_ok _ =>
      config_ok = true /\ c_migration_option c = 0 /\ happened w0 ops made_metadata /\ ready w0 ops
  | OLockLp owner => happened w0 ops migrated /\ lp_to_lock w owner
  | OClaimLp owner => happened w0 ops migrated /\ lp_to_claim w owner
  | OCreateOperator s addr perm => In s (w_admins w) /\ ~ is_an_operator w addr /\ 1 <= perm <= 3
  | OCloseOperator s addr => In s (w_admins w) /\ is_an_operator w addr
  (* swaps, the migration to DAMM v2 and what others do with their own tokens: not here *)
  | _ => False
  end.
Definition covered (o : op) : bool :=
  match o with
  | OSwap _ | OMigrateV2 _ _ | ODonateBase _ _ | ODonateQuote _ _ | ODonateSol _ _ | OMint _ _ _ | OBurn _ _ => false
  | _ => true
  end.
(** The integer arguments fit their types. *)
Definition typed_args (o : op) : Prop :=
  match o with
  | OClaimPartner _ _ b q | OClaimCreator _ _ b q | OClaimProtocol _ b q => u64ok b /\ u64ok q
  | OZap _ m _ _ _ => u64ok m
  | OMigrateV1 _ lp => u64ok lp
  | OCreateOperator _ _ perm => 0 <= perm <= U128_MAX
  | _ => True
  end.

(** ** What the flags of the pool say about its history *)

Lemma happened_snoc w0 ops o kind :
  happened w0 (ops ++ [o]) kind
  <-> happened w0 ops kind \/ (kind o /\ is_ok (exec (run w0 ops) o) = true).
Proof.
  split.
  - intros (pre & o1 & post & E & K & X).
    destruct (exists_last (l := o1 :: post)) as (l' & z & L); [discriminate|].
    rewrite L in E. rewrite app_assoc in E. apply app_inj_tail in E. destruct E as (-> & <-).
    destruct l' as [|y l'].
    + cbn in L. injection L as L1 L2. subst. right. rewrite app_nil_r. auto.
    + cbn in L. injection L as L1 L2. subst. left. exists pre, y, l'. auto.
  - intros [(pre & o1 & post & -> & K & X)|(K & X)].
    + exists pre, o1, (post ++ [o]). rewrite <- app_assoc. auto.
    + exists ops, o, []. auto.
Qed.

Lemma tracks (F : world -> Prop) kind w0 ops : initial w0 -> ~ F w0 ->
  (forall w o w', reachable w -> w_config w = w_config w0 -> exec w o = Ok w' -> (F w' <-> F w \/ kind o)) ->
  (F (run w0 ops) <-> happened w0 ops kind).
Proof.
  intros I N S. induction ops as [|o ops IH] using rev_ind.
  - split; [intros X; contradiction|]. intros (pre & o & post & E & _). destruct pre; discriminate E.
  - rewrite happened_snoc. rewrite run_app. change (run (run w0 ops) [o]) with (step (run w0 ops) o).
    assert (R : reachable (run w0 ops)) by (exists w0, ops; auto).
    assert (C : w_config (run w0 ops) = w_config w0).
    { apply (fr_config _ _ (run_frame ops w0 (reachable_inv _ (ex_intro _ w0 (ex_intro _ [] (conj I eq_refl)))))). }
    unfold step. destruct (exec (run w0 ops) o) as [w'|e] eqn:X.
    + rewrite (S _ _ _ R C X), IH. cbn [is_ok]. tauto.
    + rewrite IH. cbn [is_ok]. split; [auto|]. intros [Y|(_ & Y)]; [auto|discriminate Y].
Qed.

Lemma start_reach w0 : initial w0 -> reachable w0.
Proof. intros I. exists w0, []. auto. Qed.

Ltac exec_at H := let A' := fresh "A'" in pose proof (exec_args _ _ _ H) as A'; unfold exec in H; rewrite A' in H;
  cbn [require bind] in H; clear A'.

Lemma flag_psur w0 ops : initial w0 ->
  (p_partner_surplus (w_pool (run w0 ops)) = 1 <-> happened w0 ops took_partner_surplus).
Proof.
  intros I. apply (tracks (fun w => p_partner_surplus (w_pool w) = 1)); auto.
  - destruct (initial_flags _ I) as (A & _). rewrite A. discriminate.
  - intros w o w' R _ H. pose proof (reachable_inv _ R) as V. pose proof (exec_only _ _ _ V H) as ON.
    destruct (is_psur o) eqn:K.
    + destruct o; try discriminate K. exec_at H. apply partner_surplus_eff in H; auto.
      destruct H as (_ & _ & _ & E & _). rewrite (ef_pool _ _ _ _ E). unfold took_partner_surplus.
      split; [intros _; right; eauto|intros _; reflexivity].
    + rewrite (on_psur _ _ _ ON K). split; [auto|]. intros [X|(s & to & ->)]; [auto|discriminate K].
Qed.
Lemma flag_csur w0 ops : initial w0 ->
  (p_creator_surplus (w_pool (run w0 ops)) = 1 <-> happened w0 ops took_creator_surplus).
Proof.
  intros I. apply (tracks (fun w => p_creator_surplus (w_pool w) = 1)); auto.
  - destruct (initial_flags _ I) as (_ & A & _). rewrite A. discriminate.
  - intros w o w' R _ H. pose proof (reachable_inv _ R) as V. pose proof (exec_only _ _ _ V H) as ON.
    destruct (is_csur o) eqn:K.
    + destruct o; try discriminate K. exec_at H. apply creator_surplus_eff in H; auto.
      destruct H as (_ & _ & _ & E & _). rewrite (ef_pool _ _ _ _ E). unfold took_creator_surplus.
      split; [intros _; right; eauto|intros _; reflexivity].
    + rewrite (on_csur _ _ _ ON K). split; [auto|]. intros [X|(s & to & ->)]; [auto|discriminate K].
Qed.
Lemma flag_left w0 ops : initial w0 ->
  (p_leftover (w_pool (run w0 ops)) = 1 <-> happened w0 ops took_leftover).
Proof.
  intros I. apply (tracks (fun w => p_leftover (w_pool w) = 1)); auto.
  - destruct (initial_flags _ I) as (_ & _ & _ & A & _). rewrite A. discriminate.
  - intros w o w' R _ H. pose proof (reachable_inv _ R) as V. pose proof (exec_only _ _ _ V H) as ON.
    destruct (is_left o) eqn:K.
    + destruct o; try discriminate K. exec_at H. apply leftover_eff in H; auto.
      destruct H as (_ & _ & _ & E & _). rewrite (ef_pool _ _ _ _ E). unfold took_leftover.
      split; [intros _; right; eauto|intros _; reflexivity].
    + rewrite (on_left _ _ _ ON K). split; [auto|]. intros [X| ->]; [auto|discriminate K].
Qed.

Lemma status_step w o w' : reachable w -> exec w o = Ok w' ->
  (Z.testbit (p_mig_fee_status (w_pool w')) 2 = true
     <-> Z.testbit (p_mig_fee_status (w_pool w)) 2 = true \/ took_partner_migration_fee o)
  /\ (Z.testbit (p_mig_fee_status (w_pool w')) 1 = true
     <-> Z.testbit (p_mig_fee_status (w_pool w)) 1 = true \/ took_creator_migration_fee o).
Proof.
  intros R H. pose proof (reachable_inv _ R) as V. pose proof (exec_only _ _ _ V H) as ON.
  destruct (is_mfee o) eqn:K.
  - destruct o; try discriminate K. exec_at H. apply migration_fee_eff in H; auto.
    unfold took_partner_migration_fee, took_creator_migration_fee.
    destruct H as (_ & _ & [(-> & _ & B & E)|(-> & _ & B & E)]); rewrite (ef_pool _ _ _ _ E);
    cbn [p_mig_fee_status set_mig_fee_status];
    destruct (iv_status _ V) as [X|[X|[X|X]]]; rewrite X in *; vm_compute in B; try discriminate B;
    (split; split; intros Y;
     first [ reflexivity | right; eauto; fail | left; exact Y
           | vm_compute in Y; discriminate Y
           | destruct Y as [Y|(s & to' & Y)]; [first [exact Y | vm_compute in Y; discriminate Y]|discriminate Y] ]).
  - rewrite (on_mfee _ _ _ ON K). unfold took_partner_migration_fee, took_creator_migration_fee.
    split; (split; [auto|intros [X|(s & to & ->)]; [exact X|discriminate K]]).
Qed.
Lemma flag_pmf w0 ops : initial w0 ->
  (Z.testbit (p_mig_fee_status (w_pool (run w0 ops))) 2 = true <-> happened w0 ops took_partner_migration_fee).
Proof.
  intros I. apply (tracks (fun w => Z.testbit (p_mig_fee_status (w_pool w)) 2 = true)); auto.
  - destruct (initial_flags _ I) as (_ & _ & A & _). rewrite A. vm_compute. discriminate.
  - intros w o w' R _ H. apply (status_step _ _ _ R H).
Qed.
Lemma flag_cmf w0 ops : initial w0 ->
  (Z.testbit (p_mig_fee_status (w_pool (run w0 ops))) 1 = true <-> happened w0 ops took_creator_migration_fee).
Proof.
  intros I. apply (tracks (fun w => Z.testbit (p_mig_fee_status (w_pool w)) 1 = true)); auto.
  - destruct (initial_flags _ I) as (_ & _ & A & _). rewrite A. vm_compute. discriminate.
  - intros w o w' R _ H. apply (status_step _ _ _ R H).
Qed.

Lemma flag_pcf w0 ops : initial w0 ->
  (Z.testbit (p_creation_bits (w_pool (run w0 ops))) 1 = true <-> happened w0 ops took_partner_creation_fee).
Proof.
  intros I. apply (tracks (fun w => Z.testbit (p_creation_bits (w_pool w)) 1 = true)); auto.
  - destruct (initial_flags _ I) as (_ & _ & _ & _ & A & _). rewrite A. vm_compute. discriminate.
  - intros w o w' R _ H. pose proof (reachable_inv _ R) as V. pose proof (exec_only _ _ _ V H) as ON.
    unfold took_partner_creation_fee.
    destruct (is_pcf o) eqn:K.
    + destruct o; try discriminate K. exec_at H. apply partner_cf_eff in H; auto. cbv zeta in H.
      destruct H as (_ & _ & B & E & _). rewrite (ef_pool _ _ _ _ E). cbn [p_creation_bits set_creation_bits].
      split; [intros _; right; eauto|intros _].
      destruct (iv_cbits _ V) as [X|[X|[X|X]]]; rewrite X in *; vm_compute in B; try discriminate B; reflexivity.
    + destruct (is_prcf o) eqn:K2.
      * destruct o; try discriminate K2. exec_at H. apply protocol_cf_eff in H; auto. cbv zeta in H.
        assert (S : Z.testbit (p_creation_bits (w_pool w')) 1 = Z.testbit (p_creation_bits (w_pool w)) 1).
        { destruct H as (_ & E & _). rewrite (ef_pool _ _ _ _ E).
          clear E. destruct (iv_cbits _ V) as [X|[X|[X|X]]]; rewrite X;
          try change (negb (Z.testbit 0 0)) with true; try change (negb (Z.testbit 1 0)) with false;
          try change (negb (Z.testbit 2 0)) with true; try change (negb (Z.testbit 3 0)) with false;
          cbv iota; cbn [p_creation_bits set_creation_bits]; rewrite ?X; reflexivity. }
        rewrite S. split; [auto|]. intros [Y|(s & to & Y)]; [exact Y|discriminate Y].
      * rewrite (on_cbits _ _ _ ON K K2). split; [auto|]. intros [Y|(s & to & ->)]; [exact Y|discriminate K].
Qed.

Lemma flag_meta w0 ops : initial w0 ->
  ((exists m, w_meta (run w0 ops) = Some m) <-> happened w0 ops made_metadata).
Proof.
  intros I. apply (tracks (fun w => exists m, w_meta w = Some m)); auto.
  - destruct (initial_flags _ I) as (_ & _ & _ & _ & _ & A & _). rewrite A. intros (m & X). discriminate X.
  - intros w o w' R _ H. pose proof (reachable_inv _ R) as V. pose proof (exec_only _ _ _ V H) as ON.
    unfold made_metadata.
    destruct (is_meta o) eqn:K.
    + destruct o; try discriminate K. exec_at H. apply metadata_eff in H.
      destruct H as (_ & _ & _ & E & _). rewrite E. split; [auto|eauto].
    + assert (NK : o <> OCreateMetadata) by (intros ->; discriminate K).
      assert (S : (exists m, w_meta w' = Some m) <-> (exists m, w_meta w = Some m)).
      { destruct (is_v1 o) eqn:K1.
        - destruct o; try discriminate K1. exec_at H. apply migrate_v1_eff in H.
          destruct H as (m & m' & fb & fq & eb & eq & b & mb & _ & _ & _ & M & _ & _ & _ & _ & _ & _ & M' & _).
          rewrite M, M'. split; eauto.
        - destruct (is_lp o) eqn:K2.
          + destruct o; try discriminate K2; exec_at H.
            * apply lock_lp_eff in H. destruct H as (m & m' & a & _ & M & M' & _). rewrite M, M'. split; eauto.
            * apply claim_lp_eff in H. destruct H as (m & m' & a & _ & M & M' & _). rewrite M, M'. split; eauto.
          + rewrite (on_meta _ _ _ ON K K1 K2). tauto. }
      rewrite S. split; [auto|]. intros [X|X]; [exact X|contradiction].
Qed.

Lemma is_migrated_iff o : migrated o <-> is_migrate o = true.
Proof.
  unfold migrated. split.
  - intros [(ok & lp & ->)|(x & now & ->)]; reflexivity.
  - destruct o; try discriminate; intros _; eauto.
Qed.
Lemma flag_migrated w0 ops : initial w0 ->
  (p_progress (w_pool (run w0 ops)) = 3 <-> happened w0 ops migrated).
Proof.
  intros I. apply (tracks (fun w => p_progress (w_pool w) = 3)); auto.
  - destruct (initial_flags _ I) as (_ & _ & _ & _ & _ & _ & _ & A). rewrite A. discriminate.
  - intros w o w' R _ H. pose proof (C24_legal_edges _ _ _ R H) as G. cbv zeta in G.
    destruct (is_migrate o) eqn:K.
    + assert (P3 : p_progress (w_pool w') = 3).
      { destruct o; try discriminate K; exec_at H.
        - apply migrate_v1_eff in H.
          destruct H as (m & m' & fb & fq & eb & eq & b & mb & _ & _ & _ & _ & _ & E & _).
          rewrite (ef_pool _ _ _ _ E). reflexivity.
        - apply migrate_v2_eff in H.
          destruct H as (fb & fq & eb & eq & l2 & b & mb & h & _ & _ & _ & _ & _ & _ & _ & E & _).
          rewrite (ef_pool _ _ _ _ E). reflexivity. }
      rewrite is_migrated_iff. tauto.
    + rewrite is_migrated_iff. assert (NM : ~ (is_migrate o = true)) by congruence.
      assert (X : p_progress (w_pool w') = 3 <-> p_progress (w_pool w) = 3).
      { pose proof (pm_progress _ _ (fr_pool _ _ (proj1 (exec_frame _ _ _ (reachable_inv _ R) H)))) as PM.
        pose proof (iv_progress _ (reachable_inv _ (reachable_exec _ _ _ R H))) as PR.
        destruct G as [G|[(G & _ & _ & _ & [(_ & G2)|(_ & G2)])|[(G & G2 & _)|(G & G2 & G3)]]]; try lia.
        exfalso. destruct G3 as [(_ & ok & lp & ->)|(_ & x & now & ->)]; discriminate K. }
      tauto.
Qed.

Lemma vesting_first w : reachable w -> p_progress (w_pool w) = 1 -> ~ no_vesting (w_config w).
Proof.
  intros (w0 & ops & I & ->). induction ops as [|o ops IH] using rev_ind.
  - destruct (initial_flags _ I) as (_ & _ & _ & _ & _ & _ & _ & A). cbn. rewrite A. discriminate.
  - rewrite run_app. change (run (run w0 ops) [o]) with (step (run w0 ops) o).
    assert (R : reachable (run w0 ops)) by (exists w0, ops; auto).
    unfold step. destruct (exec (run w0 ops) o) as [w'|e] eqn:H; [|exact IH].
    rewrite (fr_config _ _ (proj1 (exec_frame _ _ _ (reachable_inv _ R) H))). intros P1.
    pose proof (C24_legal_edges _ _ _ R H) as G. cbv zeta in G.
    destruct G as [G|[(_ & _ & _ & _ & [(_ & G2)|(G1 & _)])|[(_ & G2 & _)|(_ & G2 & _)]]]; try lia; auto.
    apply IH. lia.
Qed.
Lemma flag_locker w0 ops : initial w0 ->
  ((2 <= p_progress (w_pool (run w0 ops)) /\ ~ no_vesting (w_config w0))
   <-> happened w0 ops locked_vesting_tokens).
Proof.
  intros I. apply (tracks (fun w => 2 <= p_progress (w_pool w) /\ ~ no_vesting (w_config w0))); auto.
  - destruct (initial_flags _ I) as (_ & _ & _ & _ & _ & _ & _ & A). rewrite A. lia.
  - intros w o w' R C H. pose proof (C24_legal_edges _ _ _ R H) as G. cbv zeta in G. rewrite C in G.
    unfold locked_vesting_tokens.
    destruct (is_locker o) eqn:K.
    + destruct o; try discriminate K. exec_at H. apply locker_eff in H. destruct H as (P1 & E & _).
      pose proof (vesting_first _ R P1) as V. rewrite C in V. rewrite (ef_pool _ _ _ _ E).
      cbn [p_progress set_progress]. split; [auto|]. intros _. split; [lia|exact V].
    + assert (NK : o <> OCreateLocker) by (intros ->; discriminate K).
      destruct G as [G|[(G & _ & _ & _ & [(G1 & G2)|(G1 & G2)])|[(G & G2 & G3)|(G & G2 & _)]]].
      * rewrite G. tauto.
      * rewrite G, G2. tauto.
      * rewrite G, G2. split; [lia|]. intros [X|X]; [lia|contradiction].
      * contradiction.
      * rewrite G, G2. split; [intros (_ & X); left; split; [lia|exact X]|].
        intros [(_ & X)|X]; [split; [lia|exact X]|contradiction].
Qed.

Lemma ready_iff w0 ops : initial w0 -> (ready w0 ops <-> p_progress (w_pool (run w0 ops)) = 2).
Proof.
  intros I. assert (R : reachable (run w0 ops)) by (exists w0, ops; auto).
  pose proof (reachable_inv _ R) as V. pose proof (iv_progress _ V) as PR. pose proof (iv_complete _ V) as IC.
  unfold ready, complete. rewrite <- (flag_migrated w0 ops I), <- (flag_locker w0 ops I).
  assert (C : w_config (run w0 ops) = w_config w0) by
    apply (fr_config _ _ (run_frame ops w0 (reachable_inv _ (start_reach _ I)))).
  pose proof (vesting_first _ R) as VF. rewrite C in *.
  split.
  - intros (A & B & D).
    assert (N0 : p_progress (w_pool (run w0 ops)) <> 0) by (intros X; apply IC in X; lia).
    destruct (Z.eq_dec (p_progress (w_pool (run w0 ops))) 1) as [P1|P1]; [|lia].
    exfalso. specialize (VF P1). destruct B as [B|(B & _)]; [contradiction|lia].
  - intros P2. split; [|split].
    + destruct (Z.le_gt_cases (c_threshold (w_config w0)) (p_quote (w_pool (run w0 ops)))) as [X|X]; [exact X|].
      apply IC in X. lia.
    + assert (D : no_vesting (w_config w0) \/ ~ no_vesting (w_config w0)).
      { unfold no_vesting. rewrite <- has_vesting_iff. destruct (has_vesting _); [right; discriminate|left; reflexivity]. }
      destruct D as [D|D]; [left; exact D|right; split; [lia|exact D]].
    + lia.
Qed.

Lemma find_none ops k : find_operator ops k = None <-> ~ exists perm, In (k, perm) ops.
Proof.
  induction ops as [|[a q] ops IH]; cbn.
  - split; [intros _ (p & [])|auto].
  - destruct (a =? k) eqn:E.
    + split; [discriminate|]. intros N. exfalso. apply N. exists q. left. f_equal. lia.
    + rewrite IH. split; intros N (p & X); apply N.
      * destruct X as [X|X]; [exfalso; apply pair_inj in X; lia|exists p; exact X].
      * exists p. right. exact X.
Qed.

Lemma ok_iff {A} (r : res A) : is_ok r = true <-> exists a, r = Ok a.
Proof. destruct r; cbn; split; try discriminate; eauto. intros (a & X). discriminate X. Qed.

Lemma admin_ok w s : is_ok (check_admin w s) = true <-> In s (w_admins w).
Proof.
  unfold check_admin, require.
  destruct (existsb (fun k => k =? s) (w_admins w)) eqn:E; cbn.
  - apply existsb_exists in E. destruct E as (k & K & X). assert (k = s) by lia. subst. tauto.
  - split; [discriminate|]. intros X. exfalso.
    assert (Y : existsb (fun k => k =? s) (w_admins w) = true) by (apply existsb_exists; exists s; split; [exact X|lia]).
    congruence.
Qed.

Lemma find_some_in ops k q : find_operator ops k = Some q -> In (k, q) ops.
Proof.
  induction ops as [|[a r] ops IH]; cbn; [discriminate|]. destruct (a =? k) eqn:E; [|auto].
  intros X. apply Some_inj in X. left. f_equal; [lia|exact X].
Qed.
Lemma happened_more w0 pre post kind : happened w0 pre kind -> happened w0 (pre ++ post) kind.
Proof.
  intros (a & o & b & -> & K & X). exists a, o, (b ++ post). rewrite <- app_assoc. auto.
Qed.
Lemma lp_flags w : reachable w -> p_progress (w_pool w) = 3 -> c_migration_option (w_config w) = 0 ->
  exists m, w_meta w = Some m
    /\ (m_partner_lock_done m = 0 \/ m_partner_lock_done m = 1)
    /\ (m_creator_lock_done m = 0 \/ m_creator_lock_done m = 1)
    /\ (m_partner_claim_done m = 0 \/ m_partner_claim_done m = 1)
    /\ (m_creator_claim_done m = 0 \/ m_creator_claim_done m = 1).
Proof.
  intros (w0 & ops & I & ->) P O.
  assert (R : forall l, reachable (run w0 l)) by (intros l; exists w0, l; auto).
  assert (C : forall l, w_config (run w0 l) = w_config w0) by
    (intros l; apply (fr_config _ _ (run_frame l w0 (reachable_inv _ (start_reach _ I))))).
  rewrite C in O. apply (flag_migrated w0 ops I) in P. destruct P as (pre & o & post & E & K & X).
  apply ok_iff in X. destruct X as (w' & X).
  destruct K as [(ok & lp & ->)|(x & now & ->)]; exec_at X.
  - apply migrate_v1_eff in X. destruct X as (m & m' & fb & fq & eb & eq & b & mb & _ & _ & _ & M & _).
    assert (H : happened w0 ops made_metadata).
    { rewrite E. apply happened_more. apply (flag_meta w0 pre I). eauto. }
    apply (flag_meta w0 ops I) in H. destruct H as (n & N). exists n. split; [exact N|].
    pose proof (iv_meta _ (reachable_inv _ (R ops))) as V. rewrite N in V. tauto.
  - apply migrate_v2_eff in X. destruct X as (fb & fq & eb & eq & l2 & b & mb & h & _ & _ & O1 & _).
    rewrite C in O1. lia.
Qed.

(** ** The theorem *)

Theorem C90_accepted_exactly_when_allowed : forall w0 ops o,
  initial w0 -> covered o = true -> typed_args o ->
  (is_ok (exec (run w0 ops) o) = true <-> allowed w0 ops o).
Proof.
  intros w0 ops o I CV TA.
  assert (R : reachable (run w0 ops)) by (exists w0, ops; auto).
  pose proof (reachable_inv _ R) as V.
  assert (C : w_config (run w0 ops) = w_config w0) by
    apply (fr_config _ _ (run_frame ops w0 (reachable_inv _ (start_reach _ I)))).
  pose proof (created_cfg_ok _ (iv_created _ V)) as K.
  pose proof (iv_flags _ V) as FL.
  destruct o; try discriminate CV; cbn [typed_args] in TA; cbn [allowed].
  - (* partner fees *)
    destruct TA as (B & Q). split; [|intros ->; rewrite <- C; apply C17_partner_can_claim; auto].
    intros X. apply ok_iff in X. destruct X as (w' & X). exec_at X. apply partner_eff in X. cbv zeta in X.
    rewrite <- C. tauto.
  - (* creator fees *)
    destruct TA as (B & Q). split; [|intros ->; apply C17_creator_can_claim; auto].
    intros X. apply ok_iff in X. destruct X as (w' & X). exec_at X. apply creator_eff in X. cbv zeta in X. tauto.
  - (* protocol fees *)
    destruct TA as (B & Q). destruct (C40_operations _ signer R) as (X & _). apply X; auto.
  - (* zap *)
    exact (C40_zap _ _ _ _ _ _ R TA).
  - (* surplus of the partner *)
    rewrite <- (flag_psur w0 ops I). split.
    + intros X. apply ok_iff in X. destruct X as (w' & X). exec_at X. apply partner_surplus_eff in X; auto.
      destruct X as (-> & X & F & _). rewrite C. split; [reflexivity|]. split; [exact X|lia].
    + intros (-> & X & F). rewrite <- C. apply C17_partner_can_withdraw_surplus; auto. lia.
  - rewrite <- (flag_csur w0 ops I). split.
    + intros X. apply ok_iff in X. destruct X as (w' & X). exec_at X. apply creator_surplus_eff in X; auto.
      destruct X as (-> & X & F & _). split; [reflexivity|]. split; [exact X|lia].
    + intros (-> & X & F). apply C17_creator_can_withdraw_surplus; auto. lia.
  - (* migration fee *)
    rewrite <- (flag_pmf w0 ops I), <- (flag_cmf w0 ops I). split.
    + intros X. apply ok_iff in X. destruct X as (w' & X). exec_at X. apply migration_fee_eff in X; auto.
      destruct X as (X & _ & [(-> & -> & F & _)|(-> & -> & F & _)]); (split; [exact X|]).
      * left. rewrite C, F. split; [reflexivity|]. split; [reflexivity|discriminate].
      * right. rewrite F. split; [reflexivity|]. split; [reflexivity|discriminate].
    + intros (X & [(-> & -> & F)|(-> & -> & F)]).
      * rewrite <- C. apply (C17_migration_fee_can_be_withdrawn _ to R X). destruct (Z.testbit _ 2); [exfalso; apply F; reflexivity|reflexivity].
      * apply (C17_migration_fee_can_be_withdrawn _ to R X). destruct (Z.testbit _ 1); [exfalso; apply F; reflexivity|reflexivity].
  - (* leftover *)
    rewrite <- (flag_migrated w0 ops I), <- (flag_left w0 ops I). split.
    + intros X. apply ok_iff in X. destruct X as (w' & X). exec_at X. apply leftover_eff in X.
      destruct X as (P & F & L & _). rewrite C in F. unfold is_fixed_supply in F. split; [exact P|]. split; lia.
    + intros (P & F & L). apply C17_leftover_can_be_withdrawn; auto; [|lia].
      rewrite C. unfold is_fixed_supply. lia.
  - (* creation fee of the partner *)
    rewrite <- (flag_pcf w0 ops I).
    assert (PF : 0 < c_pool_creation_fee (w_config w0) - creation_fee_protocol (w_config w0)
                 <-> 0 < c_pool_creation_fee (w_config w0)).
    { unfold creation_fee_protocol. rewrite C in K. pose proof (ok_pcf _ K).
      pose proof (Z.div_mod (c_pool_creation_fee (w_config w0) * 10) 100 ltac:(lia)).
      pose proof (Z.mod_pos_bound (c_pool_creation_fee (w_config w0) * 10) 100 ltac:(lia)). lia. }
    split.
    + intros X. apply ok_iff in X. destruct X as (w' & X). exec_at X. apply partner_cf_eff in X; auto. cbv zeta in X.
      destruct X as (-> & A & F & _). rewrite C in *. rewrite F. split; [reflexivity|]. split; [tauto|discriminate].
    + intros (-> & A & F). rewrite <- C. apply (C17_creation_fee_can_be_claimed _ to 0 R).
      * rewrite C. apply PF. exact A.
      * destruct (Z.testbit _ 1); [exfalso; apply F; reflexivity|reflexivity].
  - destruct (C40_operations _ signer R) as (_ & X & _). exact X.
  - (* creator role *)
    rewrite <- (flag_migrated w0 ops I).
    assert (CO : ~ complete (run w0 ops) <-> p_progress (w_pool (run w0 ops)) = 0).
    { unfold complete. rewrite (iv_complete _ V). lia. }
    rewrite CO. split.
    + intros X. apply ok_iff in X. destruct X as (w' & X). exec_at X. apply transfer_creator_eff in X.
      destruct X as (-> & N & P & S & _). split; [reflexivity|]. split; [exact N|].
      destruct P as [P|P]; [left; exact P|right]. split; [exact P|]. intros O k. rewrite <- C in O.
      destruct (S P O) as (m & M & S1 & S2 & S3 & S4).
      split; intros (m1 & M1 & X); rewrite M in M1; apply Some_inj in M1; subst m1; lia.
    + intros (-> & N & P). unfold exec, transfer_creator, check_creator. cbn [args_ok require bind]. cbv zeta.
      rewrite require_true by lia. cbn [bind]. rewrite require_true by lia. cbn [bind]. rewrite C.
      destruct P as [P|(P & S)].
      * rewrite P. reflexivity.
      * rewrite P. change (3 =? PreBondingCurve) with false. change (3 =? CreatedPool) with true. cbv iota.
        destruct (c_migration_option (w_config w0) =? 0) eqn:O; [|reflexivity].
        specialize (S ltac:(lia)). destruct (lp_flags _ R P) as (m & M & D); [rewrite C; lia|].
        rewrite M. cbn [ok_or bind].
        assert (PT : m_partner m = c_fee_claimer (w_config w0)).
        { pose proof (reachable_lpinv _ R) as [J1 _ _ _]. destruct (J1 _ M) as (_ & J). rewrite C in J. exact J. }
        destruct (S (c_fee_claimer (w_config w0))) as (P1 & P2).
        destruct (S (p_creator (w_pool (run w0 ops)))) as (Q1 & Q2).
        unfold lp_to_lock in P1, Q1. unfold lp_to_claim in P2, Q2. rewrite C in *.
        assert (Y1 : m_partner_locked m = 0 \/ m_partner_lock_done m = 1).
        { destruct (Z.eq_dec (m_partner_locked m) 0); [auto|]. destruct (Z.eq_dec (m_partner_lock_done m) 1); [auto|].
          exfalso. apply P1. exists m. split; [exact M|]. left. split; [reflexivity|]. lia. }
        assert (Y2 : m_creator_locked m = 0 \/ m_creator_lock_done m = 1).
        { destruct (Z.eq_dec (m_creator_locked m) 0); [auto|]. destruct (Z.eq_dec (m_creator_lock_done m) 1); [auto|].
          exfalso. apply Q1. exists m. split; [exact M|]. right. split; [reflexivity|]. lia. }
        assert (Y3 : m_partner_liq m = 0 \/ m_partner_claim_done m = 1).
        { destruct (Z.eq_dec (m_partner_liq m) 0); [auto|]. destruct (Z.eq_dec (m_partner_claim_done m) 1); [auto|].
          exfalso. apply P2. exists m. split; [exact M|]. left. split; [reflexivity|]. lia. }
        assert (Y4 : m_creator_liq m = 0 \/ m_creator_claim_done m = 1).
        { destruct (Z.eq_dec (m_creator_liq m) 0); [auto|]. destruct (Z.eq_dec (m_creator_claim_done m) 1); [auto|].
          exfalso. apply Q2. exists m. split; [exact M|]. right. split; [reflexivity|]. lia. }
        do 3 (rewrite require_true by lia; cbn [bind]). rewrite require_true by lia. reflexivity.
  - (* vesting *)
    rewrite <- (flag_locker w0 ops I). split.
    + intros X. apply ok_iff in X. destruct X as (w' & X). exec_at X. apply locker_eff in X. destruct X as (P & _).
      pose proof (vesting_first _ R P) as NV. rewrite C in NV. split; [|split; [exact NV|lia]].
      unfold complete. destruct (Z.le_gt_cases (c_threshold (w_config (run w0 ops))) (p_quote (w_pool (run w0 ops)))) as [X|X]; [exact X|].
      apply (iv_complete _ V) in X. lia.
    + intros (X & NV & F). apply C17_vesting_can_be_locked; auto.
      pose proof (iv_progress _ V). pose proof (iv_complete _ V) as IC. unfold complete in X.
      assert (p_progress (w_pool (run w0 ops)) <> 0) by (intros Y; apply IC in Y; lia).
      assert (~ 2 <= p_progress (w_pool (run w0 ops))) by tauto. lia.
  - (* metadata *)
    rewrite <- (flag_meta w0 ops I). split.
    + intros X. apply ok_iff in X. destruct X as (w' & X). exec_at X. apply metadata_eff in X. destruct X as (O & M & _).
      rewrite C in O. rewrite M. split; [exact O|]. intros (m & Y). discriminate Y.
    + intros (O & M). unfold exec, create_v1_metadata. cbn [args_ok require bind]. rewrite C, O.
      destruct (w_meta (run w0 ops)) as [m|]; [exfalso; apply M; eauto|reflexivity].
  - (* migration to DAMM v1 *)
    rewrite (ready_iff w0 ops I), <- (flag_meta w0 ops I). split.
    + intros X. apply ok_iff in X. destruct X as (w' & X). exec_at X. apply migrate_v1_eff in X.
      destruct X as (m & m' & fb & fq & eb & eq & b & mb & O & P & OP & M & _). rewrite C in OP. eauto 8.
    + intros (-> & OP & (m & M) & P). rewrite <- C in OP.
      destruct (C52_damm_v1_migration_succeeds _ lp m R P OP M TA) as (w' & X & _). rewrite X. reflexivity.
  - (* LP tokens to lock *)
    rewrite <- (flag_migrated w0 ops I). split.
    + intros X. apply ok_iff in X. destruct X as (w' & X). exec_at X. apply lock_lp_eff in X.
      destruct X as (m & m' & a & P & M & _ & _ & N & X & _). split; [exact P|]. exists m. split; [exact M|].
      pose proof (reachable_lpinv _ R) as [J1 _ _ _]. destruct (J1 _ M) as (O & J). rewrite <- J.
      destruct (lp_flags _ R P O) as (m1 & M1 & D). rewrite M in M1. apply Some_inj in M1. subst m1.
      destruct X as [(-> & E & -> & F1 & F2 & _)|[(-> & E & -> & F1 & _)|(E & -> & -> & F1 & _)]].
      * destruct (Z.eq_dec (m_partner_locked m) 0).
        -- right. split; [exact E|]. lia.
        -- left. split; [reflexivity|]. lia.
      * left. split; [reflexivity|]. lia.
      * right. split; [reflexivity|]. lia.
    + intros (P & m & M & X). destruct (C25_can_be_taken _ _ R P M) as (A1 & A2 & _).
      destruct X as [(-> & N & F)|(-> & N & F)]; auto.
  - rewrite <- (flag_migrated w0 ops I). split.
    + intros X. apply ok_iff in X. destruct X as (w' & X). exec_at X. apply claim_lp_eff in X.
      destruct X as (m & m' & a & P & M & _ & _ & N & X & _). split; [exact P|]. exists m. split; [exact M|].
      pose proof (reachable_lpinv _ R) as [J1 _ _ _]. destruct (J1 _ M) as (O & J). rewrite <- J.
      destruct (lp_flags _ R P O) as (m1 & M1 & D). rewrite M in M1. apply Some_inj in M1. subst m1.
      destruct X as [(-> & E & -> & F1 & F2 & _)|[(-> & E & -> & F1 & _)|(E & -> & -> & F1 & _)]].
      * destruct (Z.eq_dec (m_partner_liq m) 0).
        -- right. split; [exact E|]. lia.
        -- left. split; [reflexivity|]. lia.
      * left. split; [reflexivity|]. lia.
      * right. split; [reflexivity|]. lia.
    + intros (P & m & M & X). destruct (C25_can_be_taken _ _ R P M) as (_ & _ & A1 & A2).
      destruct X as [(-> & N & F)|(-> & N & F)]; auto.
  - (* operators *)
    unfold is_an_operator. rewrite <- find_none, <- admin_ok.
    unfold exec. rewrite require_true by (cbn; lia). cbn [bind]. unfold create_operator.
    destruct (check_admin (run w0 ops) signer) as [[]|e]; cbn [bind is_ok]; [|split; [discriminate|intros (X & _); discriminate X]].
    destruct (find_operator (w_operators (run w0 ops)) addr); cbn [is_some negb require bind is_ok];
      [split; [discriminate|intros (_ & X & _); discriminate X]|].
    unfold require. destruct ((0 <? perm) && (perm <? 4)) eqn:PM; cbn [bind is_ok].
    + split; [intros _; split; [reflexivity|]; split; [reflexivity|lia]|reflexivity].
    + split; [discriminate|]. intros (_ & _ & X). lia.
  - assert (F : is_an_operator (run w0 ops) addr <-> is_some (find_operator (w_operators (run w0 ops)) addr) = true).
    { unfold is_an_operator. pose proof (find_none (w_operators (run w0 ops)) addr) as FN.
      destruct (find_operator (w_operators (run w0 ops)) addr) eqn:E; cbn [is_some].
      - split; [reflexivity|]. intros _. apply find_some_in in E. eauto.
      - split; [|discriminate]. intros X. exfalso. apply (proj1 FN eq_refl). exact X. }
    rewrite F, <- admin_ok. unfold exec, close_operator. cbn [args_ok require bind].
    destruct (check_admin (run w0 ops) signer) as [[]|e]; cbn [bind is_ok]; [|split; [discriminate|intros (X & _); discriminate X]].
    destruct (is_some _); cbn [require bind is_ok]; split; auto; try discriminate. intros (_ & X). discriminate X.
Qed.

(** ** The migration to DAMM v2

    The same conditions; whether it goes through then only depends on the DAMM program taking the
    amounts its formulas give (see C52, whose conclusion this is). *)
Theorem C90_migrate_v2_only_when_allowed : forall w0 ops x now,
  initial w0 -> is_ok (exec (run w0 ops) (OMigrateV2 x now)) = true ->
  x_config_ok x = true /\ c_migration_option (w_config w0) = 1 /\ ready w0 ops.
Proof.
  intros w0 ops x now I X. apply ok_iff in X. destruct X as (w' & X). exec_at X.
  assert (C : w_config (run w0 ops) = w_config w0) by
    apply (fr_config _ _ (run_frame ops w0 (reachable_inv _ (start_reach _ I)))).
  split.
  - unfold migrate_v2 in X. apply bind_ok in X. destruct X as (u & X & _). apply require_ok in X. exact X.
  - apply migrate_v2_eff in X. destruct X as (fb & fq & eb & eq & l2 & b & mb & h & _ & P & O & _).
    rewrite C in O. split; [exact O|]. apply (ready_iff w0 ops I). exact P.
Qed.

Theorem C90_migrate_v2_when_allowed : forall w0 ops now,
  initial w0 -> c_migration_option (w_config w0) = 1 -> ready w0 ops ->
  0 <= now -> now + 63072000 <= U64_MAX ->
  let h := if c_migrated_collect_mode (w_config w0) =? 2 then Compounding else Concentrated in
  exists price liq1, 0 < liq1
  /\ forall d1b d1q, damm_takes h price liq1 d1b d1q ->
     exists liq2, 0 <= liq2
     /\ forall d2b d2q, damm_adds h price d1b d1q liq1 liq2 d2b d2q ->
        is_ok (exec (run w0 ops) (OMigrateV2 (mkExt true d1b d1q d1b d1q liq1 d2b d2q true) now)) = true.
Proof.
  intros w0 ops now I O RD N0 N1.
  assert (R : reachable (run w0 ops)) by (exists w0, ops; auto).
  assert (C : w_config (run w0 ops) = w_config w0) by
    apply (fr_config _ _ (run_frame ops w0 (reachable_inv _ (start_reach _ I)))).
  apply (ready_iff w0 ops I) in RD. rewrite <- C in O.
  destruct (C52_damm_v2_migration_succeeds _ _ R RD O N0 N1) as (price & liq1 & L & _ & _ & H).
  cbv zeta. rewrite <- C. exists price, liq1. split; [exact L|]. intros d1b d1q D.
  destruct (H d1b d1q D) as (liq2 & L2 & G). exists liq2. split; [exact L2|]. intros d2b d2q D2.
  destruct (G d2b d2q D2) as (w' & X & _). rewrite X. reflexivity.
Qed.

(** ** Trades with a named input

    What becomes of a trade is decided by how far it could be filled if the trader accepted any price
    and any part of it ([filled], which received [got]): it is executed just like that; or it is
    refused for slippage, and [got] is less than the minimum asked; or it must be filled whole
    (mode 0), cannot be, because the price reaches the end of the curve, and is refused for want of
    liquidity. There is no other outcome. *)
Definition outcome (w : world) (a : swap_args) : Prop :=
  exists filled paid got ft referral,
    exec w (OSwap (with_mode (limit a 0) 1)) = Ok filled
    /\ w_log filled = w_log w ++ swap_movements a paid got ft referral
    /\ ((exec w (OSwap a) = Ok filled /\ sa_amount1 a <= got)
        \/ (exec w (OSwap a) = Err EExceededSlippage /\ got < sa_amount1 a)
        \/ (exec w (OSwap a) = Err EInsufficientLiquidity /\ sa_mode a = 0
            /\ p_price (w_pool filled) = last_price (w_config w) (sa_dir a))).

Lemma short_of_liquidity w a w' : reachable w -> sa_mode a = 1 -> exec w (OSwap a) = Ok w' ->
  exec w (OSwap (with_mode a 0)) = Err EInsufficientLiquidity ->
  forall l, 0 <= l <= U64_MAX -> exec w (OSwap (limit (with_mode a 0) l)) = Err EInsufficientLiquidity.
Proof.
  intros R M H EX l L. pose proof (reachable_inv _ R) as I.
  pose proof (created_cfg_ok _ (iv_created _ I)) as K.
  destruct (swap_eff _ _ _ I H) as (fm & r & num & fee & gross & pf & cf & cur & p1 & E & PRE & PS & _ & _).
  pose proof (se_point _ _ _ _ _ _ _ _ _ _ _ E) as CP. pose proof (se_fm _ _ _ _ _ _ _ _ _ _ _ E) as FM. clear E.
  unfold exec in *. apply bind_ok in H. destruct H as (u & A & H). apply require_ok in A.
  assert (AO : args_ok (OSwap (with_mode a 0)) = true) by exact A.
  assert (AL : args_ok (OSwap (limit (with_mode a 0) l)) = true).
  { cbn [args_ok] in A. apply andb_prop in A. destruct A as (A & A4). apply andb_prop in A. destruct A as (A & A3).
    apply andb_prop in A. destruct A as (A1 & A2).
    cbn [args_ok limit with_mode sa_amount0 sa_amount1 sa_slot sa_now]. rewrite A1, A3, A4, u64b_intro by exact L. reflexivity. }
  rewrite AO in EX. rewrite AL. cbn [require bind] in *. unfold do_swap in *. apply bind_ok in H. destruct H as ([w2 r'] & S & H).
  apply Ok_inj in H. cbn in H. subst w2. unfold swap_full in *. cbv zeta in *.
  cbn [limit with_mode sa_user sa_referral sa_dir sa_mode sa_amount0 sa_amount1 sa_slot sa_now sa_view] in *.
  apply bind_ok in S. destruct S as (u1 & X1 & S). rewrite X1 in *. cbn [bind] in *. rewrite CP in *. cbn [bind] in *.
  apply bind_ok in S. destruct S as (u2 & X2 & S). rewrite X2 in *. cbn [bind] in *.
  apply bind_ok in S. destruct S as (u3 & X3 & S). rewrite X3 in *. cbn [bind] in *.
  destruct (pre_swap_ok _ _ _ _ PRE) as (vt & PT).
  rewrite PRE in *. cbn [bind] in *. rewrite FM in *. cbn [bind] in *. rewrite PS in S. cbn [bind] in S.
  unfold process_swap in PS, EX |- *. rewrite M in PS. cbn [Z.eqb Pos.eqb] in *.
  apply bind_ok in PS. destruct PS as (r0 & P0 & PS).
  assert (PP : c_start (w_config w) <= p_price p1 <= c_mig_price (w_config w)) by (subst p1; apply (iv_price _ I)).
  destruct (partial_is_exact _ _ _ _ _ _ _ _ K PP P0) as [X|(X & Y)]; rewrite X in EX |- *; cbn [bind] in *.
  - exfalso. rewrite PS in EX. cbn [bind] in EX.
    apply bind_ok in S. destruct S as (p2 & X4 & S). rewrite X4 in EX. cbn [bind] in EX.
    apply bind_ok in S. destruct S as (w1 & T & S).
    change (swap_transfers (set_w_pool w p2) (with_mode a 0) fm r) with (swap_transfers (set_w_pool w p2) a fm r) in EX.
    rewrite T in EX. cbn [bind] in EX. apply bind_ok in S. destruct S as (w3 & X5 & S). rewrite X5 in EX. discriminate EX.
  - reflexivity.
Qed.

Lemma outcome_of w a filled : reachable w -> sa_mode a = 0 \/ sa_mode a = 1 -> 0 <= sa_amount1 a <= U64_MAX ->
  exec w (OSwap (with_mode (limit a 0) 1)) = Ok filled -> outcome w a.
Proof.
  intros R M L F. set (f := with_mode (limit a 0) 1) in *.
  destruct (C82_limit_only w f filled R F) as (paid & got & ft & referral & LG & LM).
  exists filled, paid, got, ft, referral. split; [exact F|]. split; [exact LG|].
  specialize (LM (sa_amount1 a) L). change (sa_mode f =? 2) with false in LM. cbv iota in LM.
  assert (MF : sa_mode f = 1) by reflexivity.
  destruct M as [M|M].
  - assert (E0 : limit (with_mode f 0) (sa_amount1 a) = a) by (destruct a; cbn in *; subst; reflexivity).
    destruct (C86_partial_fill_stops_only_at_the_end w f filled R MF F) as [X|(X & PR & _)].
    + destruct (C82_limit_only w _ filled R X) as (paid1 & got1 & ft1 & ref1 & LG1 & LM1).
      specialize (LM1 (sa_amount1 a) L). rewrite E0 in LM1. change (sa_mode (with_mode f 0) =? 2) with false in LM1.
      cbv iota in LM1. rewrite LG in LG1. apply app_inv_head in LG1.
      assert (G : got1 = got).
      { unfold swap_movements in LG1. cbn in LG1. destruct (sa_dir a); cbn in LG1; injection LG1; intros; congruence. }
      subst got1. rewrite LM1. destruct (sa_amount1 a <=? got) eqn:B; [left|right; left]; (split; [reflexivity|lia]).
    + right; right. split; [|split; [exact M|exact PR]]. rewrite <- E0 at 1.
      apply (short_of_liquidity w f filled R MF F X _ L).
  - assert (E1 : limit f (sa_amount1 a) = a) by (destruct a; cbn in *; subst; reflexivity).
    rewrite E1 in LM. rewrite LM. destruct (sa_amount1 a <=? got) eqn:B; [left|right; left]; (split; [reflexivity|lia]).
Qed.

Theorem C90_purchase_outcome : forall w a m,
  reachable w -> ~ complete w -> sa_dir a = QuoteToBase -> sa_mode a = 0 \/ sa_mode a = 1 ->
  0 < sa_amount0 a -> 0 <= sa_amount1 a <= U64_MAX -> clock_ok w a -> most_paid w a m -> purchase_room w m ->
  (limiter_active (w_config w) (p_activation (w_pool w))
      (point_of (w_config w) (sa_slot a) (sa_now a)) (sa_dir a) -> alone (sa_view a) (w_key w)) ->
  outcome w a.
Proof.
  intros w a m R NC D M P L CK MP RM LA. unfold complete in NC.
  destruct (C53_purchase_succeeds w (with_mode (limit a 0) 1) m R ltac:(lia)) as (w' & X & _); auto.
  - unfold purchase. auto.
  - apply (outcome_of w a w'); auto.
Qed.

Theorem C90_sale_outcome : forall w a supply,
  reachable w -> ~ complete w -> sa_dir a = BaseToQuote -> sa_mode a = 0 \/ sa_mode a = 1 ->
  get_initial_base_supply (w_config w) = Ok supply ->
  0 < sa_amount0 a <= supply - p_base (w_pool w) -> 0 <= sa_amount1 a <= U64_MAX -> clock_ok w a ->
  w_bvault w + sa_amount0 a <= U64_MAX ->
  p_m_protocol_quote (w_pool w) + p_quote (w_pool w) <= U64_MAX ->
  p_m_trading_quote (w_pool w) + p_quote (w_pool w) <= U64_MAX ->
  outcome w a /\ exec w (OSwap a) <> Err EInsufficientLiquidity.
Proof.
  intros w a supply R NC D M S P L CK V1 V2 V3. unfold complete in NC.
  destruct (C47_sell_back w (with_mode (limit a 0) 1) supply R ltac:(lia) S) as (w' & X & _); auto.
  { unfold sale. auto. }
  split; [apply (outcome_of w a w'); auto|].
  (* without a minimum it is accepted, so liquidity is never the reason *)
  destruct (C47_sell_back w (limit a 0) supply R ltac:(lia) S) as (w1 & X1 & _); auto.
  { unfold sale. auto. }
  destruct (C82_limit_only w _ w1 R X1) as (paid & got & ft & referral & _ & LM).
  specialize (LM (sa_amount1 a) L).
  assert (E : limit (limit a 0) (sa_amount1 a) = a) by (destruct a; reflexivity). rewrite E in LM. rewrite LM.
  destruct (if sa_mode (limit a 0) =? 2 then _ else _); discriminate.
Qed.

(** A swap is never accepted with nothing to trade, or once the curve is complete. *)
Theorem C90_swap_needs : forall w a w', reachable w -> exec w (OSwap a) = Ok w' ->
  0 < sa_amount0 a /\ ~ complete w /\ 0 <= sa_mode a <= 2.
Proof.
  intros w a w' R H. unfold exec, do_swap, swap_full in H. cbv zeta in H.
  apply bind_ok in H. destruct H as (u & _ & H). apply bind_ok in H. destruct H as (r & H & _).
  apply bind_ok in H. destruct H as (u1 & A & H). apply require_ok in A.
  apply bind_ok in H. destruct H as (cur & _ & H). apply bind_ok in H. destruct H as (u2 & _ & H).
  apply bind_ok in H. destruct H as (u3 & B & H). apply require_ok in B. unfold is_curve_complete in B.
  apply bind_ok in H. destruct H as (p1 & _ & H). apply bind_ok in H. destruct H as (fm & _ & H).
  apply bind_ok in H. destruct H as (r1 & P & _). unfold complete. split; [lia|]. split; [lia|].
  unfold process_swap in P. destruct (sa_mode a =? 0) eqn:M0; [lia|]. destruct (sa_mode a =? 1) eqn:M1; [lia|].
  destruct (sa_mode a =? 2) eqn:M2; [lia|discriminate P].
Qed.

(** ** Cases *)

(** The life of pool A (vesting, surplus, fees, migration to DAMM v2) and of pool B (DAMM v1): each
    instruction, at its place in the history, satisfies the rules; once it has been executed, the
    same instruction does not any more if it pays or does something only once. *)
Definition allowed_here (w0 : world) (ops : list op) (n : nat) : Prop :=
  match skipn n ops with
  | o :: _ => covered o = true /\ allowed w0 (firstn n ops) o
              /\ match o with OClaimPartner _ _ _ _ | OClaimCreator _ _ _ _ | OClaimProtocol _ _ _
                            | OProtocolCreationFee _ => True
                 | _ => ~ allowed w0 ops o end
  | [] => False
  end.
Lemma yes w0 ops o : initial w0 -> covered o = true -> typed_args o -> is_ok (exec (run w0 ops) o) = true ->
  allowed w0 ops o.
Proof. intros I C T X. exact (proj1 (C90_accepted_exactly_when_allowed w0 ops o I C T) X). Qed.
Lemma no w0 ops o : initial w0 -> covered o = true -> typed_args o -> is_ok (exec (run w0 ops) o) = false ->
  ~ allowed w0 ops o.
Proof.
  intros I C T X Y. pose proof (proj2 (C90_accepted_exactly_when_allowed w0 ops o I C T) Y) as Z. congruence.
Qed.
Ltac typed := cbn [typed_args]; unfold u64ok; try exact Logic.I; vm_compute; repeat split; discriminate.
Ltac here I :=
  unfold allowed_here; cbn [skipn firstn app];
  split; [reflexivity|]; split;
  [apply (yes _ _ _ I); [reflexivity|typed|vm_compute; reflexivity]
  |lazymatch goal with
   | |- True => exact Logic.I
   | _ => apply (no _ _ _ I); [reflexivity|typed|vm_compute; reflexivity]
   end].

Example C90_case_A : let h := histA1 ++ histA2 ++ histA3 in
  initial wA /\ forall n, In n [5; 6; 8; 9; 10; 11; 13; 14; 15; 16; 17; 18; 19]%nat -> allowed_here wA h n.
Proof.
  cbv zeta. split; [exact initialA|]. intros n N. cbn in N.
  repeat (destruct N as [<-|N]; [unfold histA1, histA2, histA3; here initialA|]). destruct N.
Qed.

Example C90_case_B : let h := histB ++ takeB ++ [OTransferCreator 44 45] in
  initial wB /\ (forall n, In n [1; 2; 3; 4; 5; 6; 7]%nat -> allowed_here wB h n)
  (* the creator role cannot be passed on before the LP tokens are handed out *)
  /\ ~ allowed wB (histB ++ firstn 3 takeB) (OTransferCreator 44 45).
Proof.
  cbv zeta. split; [exact initialB|]. split.
  - intros n N. cbn in N.
    repeat (destruct N as [<-|N]; [unfold histB, takeB; here initialB|]). destruct N.
  - apply (no _ _ _ initialB); [reflexivity|typed|vm_compute; reflexivity].
Qed.

(** The three outcomes of a purchase. *)
Example C90_case_purchase : let w := run wA histA1 in
  let buy mode amount least := mkSwapArgs 503 None QuoteToBase mode amount least 1200 1700000900 plain_view in
  reachable w /\ ~ complete w
  /\ outcome w (buy 0 1000000000 0) /\ is_ok (exec w (OSwap (buy 0 1000000000 0))) = true
  /\ outcome w (buy 0 1000000000 U64_MAX) /\ exec w (OSwap (buy 0 1000000000 U64_MAX)) = Err EExceededSlippage
  /\ outcome w (buy 0 200000000000 0) /\ exec w (OSwap (buy 0 200000000000 0)) = Err EInsufficientLiquidity.
Proof.
  cbv zeta. split; [apply reachA|].
  assert (NC : ~ complete (run wA histA1)) by (vm_compute; intros X; apply X; reflexivity). split; [exact NC|].
  assert (O : forall mode amount least, mode = 0 \/ mode = 1 -> 0 < amount <= 200000000000 -> 0 <= least <= U64_MAX ->
    outcome (run wA histA1) (mkSwapArgs 503 None QuoteToBase mode amount least 1200 1700000900 plain_view)).
  { intros mode amount least M A L.
    assert (NL : ~ limiter_active (w_config (run wA histA1)) (p_activation (w_pool (run wA histA1)))
      (point_of (w_config (run wA histA1)) 1200 1700000900) QuoteToBase)
      by (unfold limiter_active; vm_compute; intros (X & _); discriminate X).
    apply (C90_purchase_outcome _ _ amount); [apply reachA|exact NC|reflexivity|exact M|cbn; lia|exact L| | | |].
    - unfold clock_ok. vm_compute. repeat split; discriminate.
    - unfold most_paid. cbn [sa_amount0 sa_dir sa_slot sa_now]. split; [intros X; contradiction|reflexivity].
    - unfold purchase_room.
      assert (Q : w_qvault (run wA histA1) = w_qvault (run wA histA1)) by reflexivity. vm_compute in Q.
      assert (V : w_qvault (run wA histA1) <= 10 ^ 12) by (vm_compute; discriminate).
      assert (V1 : p_m_protocol_quote (w_pool (run wA histA1)) <= 10 ^ 12) by (vm_compute; discriminate).
      assert (V2 : p_m_trading_quote (w_pool (run wA histA1)) <= 10 ^ 12) by (vm_compute; discriminate).
      assert (V3 : p_m_protocol_base (w_pool (run wA histA1)) + p_base (w_pool (run wA histA1)) <= U64_MAX) by (vm_compute; discriminate).
      assert (V4 : p_m_trading_base (w_pool (run wA histA1)) + p_base (w_pool (run wA histA1)) <= U64_MAX) by (vm_compute; discriminate).
      change (10 ^ 12) with 1000000000000 in *. unfold U64_MAX in *. change (2 ^ 64) with 18446744073709551616 in *.
      split; [lia|]. destruct (_ =? 0); split; lia.
    - intros X. contradiction. }
  split; [apply O; [auto|lia|unfold U64_MAX; lia]|]. split; [vm_compute; reflexivity|].
  split; [apply O; [auto|lia|unfold U64_MAX; lia]|]. split; [vm_compute; reflexivity|].
  split; [apply O; [auto|lia|unfold U64_MAX; lia]|]. vm_compute. reflexivity.
Qed.

Print Assumptions C90_accepted_exactly_when_allowed.
Print Assumptions C90_migrate_v2_only_when_allowed.
Print Assumptions C90_migrate_v2_when_allowed.
Print Assumptions C90_purchase_outcome.
Print Assumptions C90_sale_outcome.
Print Assumptions C90_swap_needs.
