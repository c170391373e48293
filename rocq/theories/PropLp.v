(** * DAMM v1 LP tokens and the creator role: C25, C46. *)
From Coq Require Import ZArith QArith List Bool Lia ZifyBool Lqa.
From Verif Require Import Base MathModel CurveModel FeeModel ConfigModel PoolModel TxModel
  SystemModel Spec SpecHist Lib CurveProofs CurveLoops Potential CalcProofs ConfigProofs FeeProofs
  SwapProofs InvProofs InvOps InvReach Effects Frame Bounds PropFees Only PropPay
  Fixtures FixturesReach.
Import ListNotations.
Open Scope Z_scope.
#[local] Arguments Z.pow : simpl never.
#[local] Arguments Z.testbit : simpl never.

(** Nothing is left to lock or hand out. *)
Definition settled (m : v1meta) : Prop :=
  (m_partner_locked m = 0 \/ m_partner_lock_done m = 1)
  /\ (m_creator_locked m = 0 \/ m_creator_lock_done m = 1)
  /\ (m_creator_liq m = 0 \/ m_creator_claim_done m = 1)
  /\ (m_partner_liq m = 0 \/ m_partner_claim_done m = 1).

Record lpinv (w : world) : Prop := {
  lq_meta : forall m, w_meta w = Some m ->
     c_migration_option (w_config w) = 0 /\ m_partner m = c_fee_claimer (w_config w);
  lq_fair : forall m, w_meta w = Some m -> p_creator (w_pool w) = m_partner m ->
     (m_partner_lock_done m = m_creator_lock_done m
      /\ m_partner_claim_done m = m_creator_claim_done m) \/ settled m;
  lq_max : w_lp w <= U64_MAX;
  lq_zero : p_progress (w_pool w) <> 3 -> w_lp w = 0
}.

Lemma settled_progress m m' : meta_progress m m' -> settled m -> settled m'.
Proof.
  intros [] (A & B & C & D). unfold settled. rewrite mp_pl, mp_pu, mp_cl, mp_cu.
  repeat split; [destruct A|destruct B|destruct C|destruct D]; auto.
Qed.

Lemma lpinv_initial w : initial w -> lpinv w.
Proof.
  intros H. destruct (initial_flags _ H) as (_ & _ & _ & _ & _ & M & L & _).
  constructor; rewrite ?M, ?L; try discriminate; auto.
Qed.

Lemma lpinv_exec w o w' : Inv w -> lpinv w -> exec w o = Ok w' -> lpinv w'.
Proof.
  intros I [J1 J2 J3 J4] H. pose proof (exec_args _ _ _ H) as A. pose proof H as H0.
  destruct (exec_frame _ _ _ I H) as (F & _). pose proof (fr_config _ _ F) as CF.
  pose proof (exec_only _ _ _ I H) as ON. pose proof (iv_progress _ I) as PR.
  pose proof (pm_progress _ _ (fr_pool _ _ F)) as PM.
  pose proof (exec_inv _ _ _ I H) as I'. pose proof (iv_progress _ I') as PR'.
  pose proof (iv_meta _ I) as IM.
  destruct (is_meta o) eqn:K1.
  { destruct o; try discriminate K1. unfold exec in H. cbn [args_ok require bind] in H.
    apply metadata_eff in H. destruct H as (OPT & MN & E & ME & _ & _ & _ & _ & LP & _).
    constructor; rewrite ?ME, ?LP, ?CF; auto.
    - intros m X. inversion X. subst m. auto.
    - intros m X _. inversion X. subst m. left. auto.
    - rewrite (ef_pool _ _ _ _ E). exact J4. }
  destruct (is_v1 o) eqn:K2.
  { destruct o; try discriminate K2. unfold exec in H. rewrite A in H. cbn [require bind] in H.
    apply migrate_v1_eff in H.
    destruct H as (m & m' & fb & fq & eb & eq & b & mb & _ & P2 & _ & M & _ & E & _ & _ & _ & LP & ME
      & (da & db & _ & MM) & _).
    rewrite M in IM. destruct IM as (_ & _ & _ & _ & _ & _ & _ & _ & FL). destruct (FL ltac:(lia)) as (F1 & F2 & F3 & F4).
    simpl in A. apply u64b_ok in A. destruct A as (A1 & A2).
    constructor; rewrite ?ME, ?LP, ?CF; auto.
    - intros m0 X. inversion X. subst m0 m'. simpl. apply J1; auto.
    - intros m0 X _. inversion X. subst m0 m'. simpl. left. split; congruence.
    - rewrite (ef_pool _ _ _ _ E). unfold migrated_pool. simpl. lia. }
  destruct (is_lp o) eqn:K3.
  { assert (X : exists m m' a, w_meta w = Some m /\ w_meta w' = Some m' /\ meta_progress m m'
       /\ w_lp w' = w_lp w - a /\ 0 <= a /\ p_progress (w_pool w) = 3 /\ w_pool w' = w_pool w
       /\ (p_creator (w_pool w) = m_partner m ->
           (m_partner_lock_done m = m_creator_lock_done m
            /\ m_partner_claim_done m = m_creator_claim_done m) ->
           (m_partner_lock_done m' = m_creator_lock_done m'
            /\ m_partner_claim_done m' = m_creator_claim_done m'))).
    { destruct o; try discriminate K3; unfold exec in H; rewrite A in H; cbn [require bind] in H.
      - apply lock_lp_eff in H.
        destruct H as (m & m' & a & P3 & M & M' & MP & _ & C & C1 & C2 & E & LP & _).
        exists m, m', a. rewrite M in IM. destruct IM as (N1 & N2 & N3 & N4 & _).
        do 3 (split; [assumption|]). split; [exact LP|]. split.
        { clear - C N1 N2. destruct C as [C|[C|C]]; destruct C as (_ & _ & -> & _); lia. }
        split; [exact P3|]. split; [apply (ef_pool _ _ _ _ E)|].
        intros CP (Q1 & Q2). destruct C as [(O1 & O2 & _ & _ & _ & X1 & X2)|[(O1 & O2 & _)|(O1 & O2 & _)]];
        split; congruence.
      - apply claim_lp_eff in H.
        destruct H as (m & m' & a & P3 & M & M' & MP & _ & C & C1 & C2 & E & LP & _).
        exists m, m', a. rewrite M in IM. destruct IM as (N1 & N2 & N3 & N4 & _).
        do 3 (split; [assumption|]). split; [exact LP|]. split.
        { clear - C N3 N4. destruct C as [C|[C|C]]; destruct C as (_ & _ & -> & _); lia. }
        split; [exact P3|]. split; [apply (ef_pool _ _ _ _ E)|].
        intros CP (Q1 & Q2). destruct C as [(O1 & O2 & _ & _ & _ & X1 & X2)|[(O1 & O2 & _)|(O1 & O2 & _)]];
        split; congruence. }
    destruct X as (m & m' & a & M & M' & MP & LP & NA & P3 & PE & FX).
    constructor; rewrite ?M', ?LP, ?CF, ?PE.
    - intros m0 X. inversion X. subst m0. rewrite (mp_partner _ _ MP). auto.
    - intros m0 X CP. inversion X. subst m0. rewrite (mp_partner _ _ MP) in CP.
      destruct (J2 _ M CP) as [Q|Q]; [left; auto|right; eapply settled_progress; eauto].
    - lia.
    - lia. }
  pose proof (on_meta _ _ _ ON K1 K2 K3) as ME. pose proof (on_lp _ _ _ ON K2) as LP.
  rewrite (on_lp0 _ _ _ ON K3) in LP.
  destruct (is_transfer o) eqn:K4.
  { destruct o; try discriminate K4. unfold exec in H. rewrite A in H. cbn [require bind] in H.
    apply transfer_creator_eff in H. destruct H as (_ & _ & P & ST & E & _).
    constructor; rewrite ?ME, ?CF; auto; try lia.
    intros m M CP. destruct P as [P|P].
      + left. rewrite M in IM. destruct IM as (_ & _ & _ & _ & _ & _ & _ & _ & FL).
        destruct (FL ltac:(lia)) as (F1 & F2 & F3 & F4). lia.
      + destruct (J1 _ M) as (OP & _). destruct (ST P OP) as (m0 & M0 & S).
        right. rewrite M in M0. inversion M0. subst m0. exact S. }
  constructor; rewrite ?ME, ?CF, ?(on_creator _ _ _ ON K4); auto; try lia.
Qed.

Lemma reachable_lpinv w : reachable w -> lpinv w.
Proof.
  intros (w0 & ops & H & ->). pose proof (initial_inv _ H) as I. apply lpinv_initial in H.
  revert w0 I H. induction ops as [|o ops IH]; intros w0 I J; simpl; auto.
  apply IH; [apply inv_step; auto|]. unfold step. destruct (exec w0 o) eqn:X; auto.
  eapply lpinv_exec; eauto.
Qed.

(** ** C25 *)
Definition lp_minted (w : world) (o : op) : Z :=
  match o with OMigrateV1 _ lp => if is_ok (exec w o) then lp else 0 | _ => 0 end.

(** The pool authority holds what migration minted less what has been handed out, and never less
    than what is still to be handed out. *)
Theorem C25_lp_conserved : forall w0 ops, initial w0 ->
  let w := run w0 ops in
  w_lp w + total (paid TLp) w0 ops = total lp_minted w0 ops
  /\ 0 <= lp_owed w <= w_lp w
  /\ total (paid TLp) w0 ops <= total lp_minted w0 ops.
Proof.
  intros w0 ops H w.
  assert (R : reachable w) by (exists w0, ops; auto).
  assert (E : w_lp w + total (paid TLp) w0 ops = total lp_minted w0 ops + w_lp w0).
  { subst w. assert (R0 : reachable w0) by (exists w0, []; auto). clear H R. revert w0 R0.
    induction ops as [|o ops IH]; intros w0 R0; simpl; [lia|].
    assert (R1 : reachable (step w0 o)) by (change (step w0 o) with (run w0 [o]); apply reachable_run; auto).
    specialize (IH _ R1). pose proof (reachable_inv _ R0) as I.
    assert (S : w_lp (step w0 o) + paid TLp w0 o = w_lp w0 + lp_minted w0 o).
    { unfold paid, lp_minted. destruct (exec w0 o) as [w1|e] eqn:X.
      - rewrite (step_ok _ _ _ X). pose proof (exec_only _ _ _ I X) as ON.
        destruct (is_v1 o) eqn:V.
        + destruct o; try discriminate V. rewrite (on_lp0 _ _ _ ON eq_refl). rewrite ?X. cbn [is_ok].
          pose proof (exec_args _ _ _ X) as A. unfold exec in X. rewrite A in X. cbn [require bind] in X.
          apply migrate_v1_eff in X.
          destruct X as (m & m' & fb & fq & eb & eq & b & mb & _ & P2 & _ & _ & _ & _ & _ & _ & _ & LP & _).
          rewrite LP, (lq_zero _ (reachable_lpinv _ R0)) by lia. lia.
        + rewrite (on_lp _ _ _ ON V). destruct o; try discriminate V; lia.
      - unfold moved. rewrite (step_err _ _ _ X), skipn_all. simpl.
        destruct o; try lia; rewrite ?X; simpl; lia. }
    lia. }
  assert (Z0 : w_lp w0 = 0) by (destruct (initial_flags _ H); tauto).
  pose proof (reachable_inv _ R) as I. pose proof (iv_lp _ I) as L.
  assert (N : 0 <= lp_owed w).
  { pose proof (iv_meta _ I) as M. unfold lp_owed, unless. destruct (w_meta w); [|lia].
    destruct M as (M1 & M2 & M3 & M4 & _). clear - M1 M2 M3 M4.
    destruct (_ =? 1), (_ =? 1), (_ =? 1), (_ =? 1); lia. }
  repeat split; lia.
Qed.

(** One call locks or hands out exactly the caller-named owner's parts, to that owner. *)
Theorem C25_amounts : forall w w' o, reachable w ->
  (exec w (OLockLp o) = Ok w' -> exists m, w_meta w = Some m
     /\ (o = c_fee_claimer (w_config w) \/ o = p_creator (w_pool w))
     /\ moved w (OLockLp o) = [mkTransfer TLp PPool (PLock o)
          ((if o =? c_fee_claimer (w_config w) then m_partner_locked m else 0)
           + (if o =? p_creator (w_pool w) then m_creator_locked m else 0))])
  /\ (exec w (OClaimLp o) = Ok w' -> exists m, w_meta w = Some m
     /\ (o = c_fee_claimer (w_config w) \/ o = p_creator (w_pool w))
     /\ moved w (OClaimLp o) = [mkTransfer TLp PPool (PKey o)
          ((if o =? c_fee_claimer (w_config w) then m_partner_liq m else 0)
           + (if o =? p_creator (w_pool w) then m_creator_liq m else 0))]).
Proof.
  intros w w' o R. pose proof (reachable_lpinv _ R) as [J _ _ _].
  split; intros H; pose proof H as H0; unfold exec in H; cbn [args_ok require bind] in H.
  - apply lock_lp_eff in H. destruct H as (m & m' & a & P3 & M & M' & MP & _ & C & C1 & C2 & E & _).
    destruct (J _ M) as (_ & PT). exists m. split; [auto|]. rewrite (moved_eff _ _ _ _ _ H0 E). rewrite PT in C.
    destruct C as [(O1 & O2 & -> & _)|[(O1 & O2 & -> & _)|(O1 & O2 & -> & _)]]; (split; [auto|]).
    + rewrite <- O1, <- O2, Z.eqb_refl. reflexivity.
    + rewrite <- O1, Z.eqb_refl. replace (o =? _) with false by lia. do 2 f_equal. lia.
    + rewrite <- O2, Z.eqb_refl. replace (o =? _) with false by lia. do 2 f_equal.
  - apply claim_lp_eff in H. destruct H as (m & m' & a & P3 & M & M' & MP & _ & C & C1 & C2 & E & _).
    destruct (J _ M) as (_ & PT). exists m. split; [auto|]. rewrite (moved_eff _ _ _ _ _ H0 E). rewrite PT in C.
    destruct C as [(O1 & O2 & -> & _)|[(O1 & O2 & -> & _)|(O1 & O2 & -> & _)]]; (split; [auto|]).
    + rewrite <- O1, <- O2, Z.eqb_refl. reflexivity.
    + rewrite <- O1, Z.eqb_refl. replace (o =? _) with false by lia. do 2 f_equal. lia.
    + rewrite <- O2, Z.eqb_refl. replace (o =? _) with false by lia. do 2 f_equal.
Qed.

(** Once the partner's part has been locked, no later call locks it again; the same for the creator's
    part, whoever is the creator by then; the same for the parts handed out. *)
Theorem C25_each_once : forall w w' o ops, reachable w ->
  let later := run w' ops in
  (exec w (OLockLp o) = Ok w' ->
     (o = c_fee_claimer (w_config w) ->
        is_ok (exec later (OLockLp (c_fee_claimer (w_config w)))) = false)
     /\ (o = p_creator (w_pool w) ->
        is_ok (exec later (OLockLp (p_creator (w_pool later)))) = false))
  /\ (exec w (OClaimLp o) = Ok w' ->
     (o = c_fee_claimer (w_config w) ->
        is_ok (exec later (OClaimLp (c_fee_claimer (w_config w)))) = false)
     /\ (o = p_creator (w_pool w) ->
        is_ok (exec later (OClaimLp (p_creator (w_pool later)))) = false)).
Proof.
  intros w w' o ops R later. pose proof (reachable_lpinv _ R) as [J _ _ _].
  split; intros H; pose proof (reachable_exec _ _ _ R H) as R1;
  pose proof (reachable_run _ ops R1) as R2; fold later in R2;
  pose proof (reachable_inv _ R1) as I1; pose proof (run_frame ops w' I1) as F; fold later in F;
  destruct (exec_frame _ _ _ (reachable_inv _ R) H) as (F1 & _); pose proof (fr_config _ _ F1) as CF1;
  pose proof (fr_config _ _ F) as CF2; pose proof (reachable_lpinv _ R2) as [J2 _ _ _];
  unfold exec in H; cbn [args_ok require bind] in H.
  - apply lock_lp_eff in H. destruct H as (m & m' & a & P3 & M & M' & MP & _ & C & C1 & C2 & E & _).
    destruct (J _ M) as (_ & PT). rewrite PT in C.
    destruct (fr_meta _ _ F _ M') as (m2 & M2 & PT2 & K1 & K2 & K3 & K4 & _).
    destruct (J2 _ M2) as (_ & PT3). rewrite CF2, CF1 in PT3.
    split; intros O.
    + assert (D : m_partner_lock_done m2 = 1) by (apply K2; destruct C as [C|[C|C]]; tauto).
      destruct (exec later _) as [w3|] eqn:X; [|reflexivity]. exfalso.
      unfold exec in X. cbn [args_ok require bind] in X. apply lock_lp_eff in X.
      destruct X as (m3 & m3' & a3 & _ & M3 & _ & _ & _ & C3 & _). rewrite M2 in M3.
      inversion M3. subst m3. rewrite PT3 in C3. destruct C3 as [C3|[C3|C3]]; tauto.
    + assert (D : m_creator_lock_done m2 = 1) by (apply K1; destruct C as [C|[C|C]]; tauto).
      destruct (exec later _) as [w3|] eqn:X; [|reflexivity]. exfalso.
      unfold exec in X. cbn [args_ok require bind] in X. apply lock_lp_eff in X.
      destruct X as (m3 & m3' & a3 & _ & M3 & _ & _ & _ & C3 & _). rewrite M2 in M3.
      inversion M3. subst m3. rewrite PT3 in C3. destruct C3 as [C3|[C3|C3]]; tauto.
  - apply claim_lp_eff in H. destruct H as (m & m' & a & P3 & M & M' & MP & _ & C & C1 & C2 & E & _).
    destruct (J _ M) as (_ & PT). rewrite PT in C.
    destruct (fr_meta _ _ F _ M') as (m2 & M2 & PT2 & K1 & K2 & K3 & K4 & _).
    destruct (J2 _ M2) as (_ & PT3). rewrite CF2, CF1 in PT3.
    split; intros O.
    + assert (D : m_partner_claim_done m2 = 1) by (apply K4; destruct C as [C|[C|C]]; tauto).
      destruct (exec later _) as [w3|] eqn:X; [|reflexivity]. exfalso.
      unfold exec in X. cbn [args_ok require bind] in X. apply claim_lp_eff in X.
      destruct X as (m3 & m3' & a3 & _ & M3 & _ & _ & _ & C3 & _). rewrite M2 in M3.
      inversion M3. subst m3. rewrite PT3 in C3. destruct C3 as [C3|[C3|C3]]; tauto.
    + assert (D : m_creator_claim_done m2 = 1) by (apply K3; destruct C as [C|[C|C]]; tauto).
      destruct (exec later _) as [w3|] eqn:X; [|reflexivity]. exfalso.
      unfold exec in X. cbn [args_ok require bind] in X. apply claim_lp_eff in X.
      destruct X as (m3 & m3' & a3 & _ & M3 & _ & _ & _ & C3 & _). rewrite M2 in M3.
      inversion M3. subst m3. rewrite PT3 in C3. destruct C3 as [C3|[C3|C3]]; tauto.
Qed.

(** Nothing is stranded: every part not yet taken can be taken. *)
Theorem C25_can_be_taken : forall w m, reachable w ->
  p_progress (w_pool w) = 3 -> w_meta w = Some m ->
  (m_partner_locked m <> 0 -> m_partner_lock_done m = 0 ->
     is_ok (exec w (OLockLp (c_fee_claimer (w_config w)))) = true)
  /\ (m_creator_locked m <> 0 -> m_creator_lock_done m = 0 ->
     is_ok (exec w (OLockLp (p_creator (w_pool w)))) = true)
  /\ (m_partner_liq m <> 0 -> m_partner_claim_done m = 0 ->
     is_ok (exec w (OClaimLp (c_fee_claimer (w_config w)))) = true)
  /\ (m_creator_liq m <> 0 -> m_creator_claim_done m = 0 ->
     is_ok (exec w (OClaimLp (p_creator (w_pool w)))) = true).
Proof.
  intros w m R P3 M. pose proof (reachable_inv _ R) as I.
  pose proof (reachable_lpinv _ R) as [J1 J2 J3 _].
  destruct (J1 _ M) as (_ & PT). specialize (J2 _ M).
  pose proof (iv_lp _ I) as L. unfold lp_owed in L. rewrite M in L.
  pose proof (iv_meta _ I) as IM. rewrite M in IM.
  destruct IM as (N1 & N2 & N3 & N4 & B1 & B2 & B3 & B4 & _).
  assert (U : forall d x, 0 <= x -> 0 <= unless d x) by (intros [] x; simpl; lia).
  pose proof (U (m_partner_lock_done m =? 1) _ N1) as U1.
  pose proof (U (m_creator_lock_done m =? 1) _ N2) as U2.
  pose proof (U (m_partner_claim_done m =? 1) _ N3) as U3.
  pose proof (U (m_creator_claim_done m =? 1) _ N4) as U4. clear U I.
  unfold settled in J2. rewrite <- PT.
  unfold exec, lock_lp, claim_lp. cbn [args_ok require bind]. rewrite P3, M.
  change (3 =? CreatedPool) with true. cbn [require bind ok_or]. rewrite Z.eqb_refl.
  split; [|split; [|split]]; intros NZ ND; rewrite ND in *; change (0 =? 1) with false in L, U1, U2, U3, U4;
  unfold unless in *.
  - destruct (m_partner m =? p_creator (w_pool w)) eqn:S.
    + assert (FX : m_creator_lock_done m = 0) by (clear - J2 NZ S; lia). rewrite FX in *.
      change (0 =? 1) with false in *. cbv iota in *.
      unfold lock_as_self. rewrite ND, FX. rewrite require_true by reflexivity. cbn [bind].
      rewrite sadd_intro by lia. cbn [bind]. rewrite require_true by lia. cbn [bind].
      unfold pay_lp. rewrite require_true; [reflexivity|]. simpl. clear - L U3 U4. lia.
    + unfold lock_as_partner. rewrite ND. rewrite require_true by reflexivity. cbn [bind].
      rewrite require_true by lia. cbn [bind].
      unfold pay_lp. rewrite require_true; [reflexivity|]. simpl. clear - L U2 U3 U4. lia.
  - rewrite ?Z.eqb_refl, (Z.eqb_sym (p_creator _) (m_partner m)).
    destruct (m_partner m =? p_creator (w_pool w)) eqn:S.
    + assert (FX : m_partner_lock_done m = 0) by (clear - J2 NZ S; lia). rewrite FX in *.
      change (0 =? 1) with false in *. cbv iota in *.
      unfold lock_as_self. rewrite ND, FX. rewrite require_true by reflexivity. cbn [bind].
      rewrite sadd_intro by lia. cbn [bind]. rewrite require_true by lia. cbn [bind].
      unfold pay_lp. rewrite require_true; [reflexivity|]. simpl. clear - L U3 U4. lia.
    + unfold lock_as_creator. rewrite ND. rewrite require_true by reflexivity. cbn [bind].
      rewrite require_true by lia. cbn [bind].
      unfold pay_lp. rewrite require_true; [reflexivity|]. simpl. clear - L U1 U3 U4. lia.
  - destruct (m_partner m =? p_creator (w_pool w)) eqn:S.
    + assert (FX : m_creator_claim_done m = 0) by (clear - J2 NZ S; lia). rewrite FX in *.
      change (0 =? 1) with false in *. cbv iota in *.
      unfold claim_as_self. rewrite ND, FX. rewrite require_true by reflexivity. cbn [bind].
      rewrite sadd_intro by lia. cbn [bind]. rewrite require_true by lia. cbn [bind].
      unfold pay_lp. rewrite require_true; [reflexivity|]. simpl. clear - L U1 U2. lia.
    + unfold claim_as_partner. rewrite ND. rewrite require_true by reflexivity. cbn [bind].
      rewrite require_true by lia. cbn [bind].
      unfold pay_lp. rewrite require_true; [reflexivity|]. simpl. clear - L U1 U2 U4. lia.
  - rewrite ?Z.eqb_refl, (Z.eqb_sym (p_creator _) (m_partner m)).
    destruct (m_partner m =? p_creator (w_pool w)) eqn:S.
    + assert (FX : m_partner_claim_done m = 0) by (clear - J2 NZ S; lia). rewrite FX in *.
      change (0 =? 1) with false in *. cbv iota in *.
      unfold claim_as_self. rewrite ND, FX. rewrite require_true by reflexivity. cbn [bind].
      rewrite sadd_intro by lia. cbn [bind]. rewrite require_true by lia. cbn [bind].
      unfold pay_lp. rewrite require_true; [reflexivity|]. simpl. clear - L U1 U2. lia.
    + unfold claim_as_creator. rewrite ND. rewrite require_true by reflexivity. cbn [bind].
      rewrite require_true by lia. cbn [bind].
      unfold pay_lp. rewrite require_true; [reflexivity|]. simpl. clear - L U1 U2 U3. lia.
Qed.

(** Pool B to its migration, the four parts taken one by one; a second try fails. *)
Definition histB : list op :=
  [ swp 500 None QuoteToBase 1 300000000000 0 1700000000 plain_view;
    OCreateMetadata; OMigrateV1 true 100001 ].
Definition takeB : list op := [OLockLp 22; OLockLp 44; OClaimLp 22; OClaimLp 44].
Example C25_case :
  initial wB /\ all_ok wB (histB ++ takeB) = true
  /\ total lp_minted wB (histB ++ takeB) = 100001
  /\ 99000 < total (paid TLp) wB (histB ++ takeB)
  /\ forallb (fun o => negb (is_ok (exec (run wB (histB ++ takeB)) o))) takeB = true.
Proof. split; [exact initialB|]. vm_compute. repeat split; reflexivity. Qed.

(** ** C46: the creator role *)
Theorem C46_transfer_gated : forall w w' s n, reachable w ->
  exec w (OTransferCreator s n) = Ok w' ->
  s = p_creator (w_pool w) /\ p_creator (w_pool w') = n
  (* before completion, or once migrated *)
  /\ (p_quote (w_pool w) < c_threshold (w_config w) \/ p_progress (w_pool w) = 3)
  (* for DAMM v1, once migrated: no LP tokens are left to lock or hand out *)
  /\ (p_progress (w_pool w) = 3 -> c_migration_option (w_config w) = 0 ->
      exists m, w_meta w = Some m /\ settled m /\ lp_owed w = 0).
Proof.
  intros w w' s n R H. pose proof (reachable_inv _ R) as I. pose proof (exec_args _ _ _ H) as A.
  unfold exec in H. rewrite A in H. cbn [require bind] in H.
  apply transfer_creator_eff in H. destruct H as (E1 & E2 & P & S & E & _).
  split; [exact E1|]. split; [rewrite (ef_pool _ _ _ _ E); reflexivity|].
  split; [destruct P as [P|P]; [left; apply (iv_complete _ I); auto|auto]|].
  intros P3 OP. destruct (S P3 OP) as (m & M & ST). exists m. split; auto. split; [exact ST|].
  unfold lp_owed. rewrite M. destruct ST as (S1 & S2 & S3 & S4).
  assert (U : forall d x, x = 0 \/ d = 1 -> unless (d =? 1) x = 0)
    by (intros d x [->| ->]; unfold unless; [destruct (_ =? 1)|]; reflexivity).
  rewrite !U by auto. reflexivity.
Qed.

(** Nobody else can change the creator. *)
Theorem C46_creator_only_changes_by_transfer : forall w w' o, reachable w -> exec w o = Ok w' ->
  p_creator (w_pool w') <> p_creator (w_pool w) ->
  o = OTransferCreator (p_creator (w_pool w)) (p_creator (w_pool w')).
Proof.
  intros w w' o R H N. pose proof (reachable_inv _ R) as I.
  destruct (is_transfer o) eqn:T.
  - destruct o; try discriminate T. destruct (C46_transfer_gated _ _ _ _ R H) as (-> & -> & _). reflexivity.
  - exfalso. apply N. apply (on_creator _ _ _ (exec_only _ _ _ I H) T).
Qed.

(** The creator who is in office at migration is the one whose LP tokens are locked and paid out. *)
Theorem C46_lp_stays_with_creator : forall w ops m, reachable w ->
  p_progress (w_pool w) = 3 -> w_meta w = Some m ->
  p_creator (w_pool (run w ops)) = p_creator (w_pool w)
  \/ exists m', w_meta (run w ops) = Some m' /\ settled m'.
Proof.
  intros w ops m R P3 M.
  assert (X : forall ops w, reachable w -> p_progress (w_pool w) = 3 ->
     (exists m, w_meta w = Some m /\ settled m) -> exists m', w_meta (run w ops) = Some m' /\ settled m').
  { clear. intros ops w R P3 (m & M & S). destruct (run_frame ops w (reachable_inv _ R)) as [_ _ _ _ F _ _ _ _ _].
    destruct (F _ M) as (m' & M' & _ & K1 & K2 & K3 & K4 & KE). destruct (KE P3) as (L1 & L2 & L3 & L4).
    exists m'. split; auto. destruct S as (S1 & S2 & S3 & S4). unfold settled. rewrite L1, L2, L3, L4.
    repeat split; [destruct S1|destruct S2|destruct S3|destruct S4]; auto. }
  revert w m R P3 M. induction ops as [|o ops IH]; intros w m R P3 M; simpl; auto.
  assert (R1 : reachable (step w o)) by (change (step w o) with (run w [o]); apply reachable_run; auto).
  destruct (exec w o) as [w'|e] eqn:H.
  2:{ rewrite (step_err _ _ _ H). apply IH with m; auto. }
  rewrite (step_ok _ _ _ H) in *.
  pose proof (reachable_inv _ R) as I. destruct (exec_frame _ _ _ I H) as (F & _).
  assert (P3' : p_progress (w_pool w') = 3).
  { pose proof (pm_progress _ _ (fr_pool _ _ F)). pose proof (iv_progress _ (reachable_inv _ R1)). lia. }
  destruct (fr_meta _ _ F _ M) as (m1 & M1 & _).
  destruct (is_transfer o) eqn:T.
  - right. destruct o; try discriminate T. apply X; auto.
    destruct (lq_meta _ (reachable_lpinv _ R) _ M) as (OP & _).
    destruct (C46_transfer_gated _ _ _ _ R H) as (_ & _ & _ & S).
    destruct (S P3 OP) as (m0 & M0 & ST & _). exists m0. split; auto.
    rewrite (on_meta _ _ _ (exec_only _ _ _ I H)); auto.
  - rewrite <- (on_creator _ _ _ (exec_only _ _ _ I H) T). apply IH with m1; auto.
Qed.

Example C46_case :
  let w := run wB histB in
  is_ok (exec wB (OTransferCreator 44 45)) = true
  /\ p_progress (w_pool w) = 3
  /\ is_ok (exec w (OTransferCreator 44 45)) = false
  /\ is_ok (exec (run w takeB) (OTransferCreator 44 45)) = true.
Proof. vm_compute. repeat split; reflexivity. Qed.

Print Assumptions C25_lp_conserved.
Print Assumptions C25_amounts.
Print Assumptions C25_each_once.
Print Assumptions C25_can_be_taken.
Print Assumptions C46_transfer_gated.
Print Assumptions C46_creator_only_changes_by_transfer.
Print Assumptions C46_lp_stays_with_creator.
