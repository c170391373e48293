(** * What the migrated pool leaves in the quote vault: C69, continued.

    [C69_quote_accounted] (PropStrand.v) says that nothing is left in the quote vault but gifts and
    what a DAMM v2 pool did not take. Here: a concentrated DAMM v2 pool that charges for liquidity
    what its formulas say takes everything up to (less than) the price of one smallest unit of the
    base token. *)
From Coq Require Import ZArith QArith List Bool Lia ZifyBool Lqa.
From Verif Require Import Base MathModel CurveModel FeeModel ConfigModel PoolModel TxModel
  SystemModel Spec SpecHist Lib CurveProofs CurveLoops Potential CalcProofs ConfigProofs FeeProofs
  SwapProofs InvProofs InvOps InvReach Effects Bounds Frame Only PropSafe PropAccess
  Fixtures FixturesReach PropMig PropOpen PropStrand.
Import ListNotations.
Open Scope Z_scope.
#[local] Arguments Z.pow : simpl never.
#[local] Arguments Z.testbit : simpl never.

(** The positions of the migrated pool, each charged what the concentrated formulas say. *)
Definition charged (price : Z) (x : damm_v2_ext) (liquidity : list Z) : Prop :=
  match liquidity with
  | [l1] => damm_takes Concentrated price l1 (x_d1b x) (x_d1q x)
  | [l1; l2] => damm_takes Concentrated price l1 (x_d1b x) (x_d1q x)
                /\ damm_takes Concentrated price l2 (x_d2b x) (x_d2q x)
  | _ => False
  end.

(** What a DAMM v2 migration sends, next to the liquidity it asks for. *)
Lemma migrate_v2_quote w x now w' : migrate_v2 w x now = Ok w' ->
  let c := w_config w in let h := get_migration_handler 1 (c_migrated_collect_mode c) in
  exists fb fq eb eq l1 l2,
    p_progress (w_pool w) = 2 /\ c_migration_option c = 1
    /\ migration_split w h = Ok (fb, fq, eb, eq)
    /\ 0 <= x_d1b x <= eb /\ 0 <= x_d1q x <= eq
    /\ calculate_liquidity_delta h (c_mig_price c) (eb - x_d1b x) (eq - x_d1q x)
          (x_rbase x) (x_rquote x) (x_rliq x) = Ok l2
    /\ (0 < l2 -> map po_total (w_positions w') = [l1; l2]
          /\ w_qvault w' = w_qvault w - x_d1q x - x_d2q x)
    /\ (l2 <= 0 -> map po_total (w_positions w') = [l1] /\ w_qvault w' = w_qvault w - x_d1q x).
Proof.
  intros H c h. unfold migrate_v2 in H.
  apply bind_ok in H. destruct H as (u0 & _ & H).
  apply bind_ok in H. destruct H as ([] & R & H). cbv zeta in H. fold c in H. fold h in H.
  apply ready_ok in R. destruct R as (P & _ & O).
  apply bind_ok in H. destruct H as (u2 & _ & H).
  apply bind_ok in H. destruct H as ([[[fb fq] eb] eq] & S & H).
  apply bind_ok in H. destruct H as ([[price liq] dead] & INF & H).
  apply bind_ok in H. destruct H as ([pa cr] & D & H).
  apply bind_ok in H. destruct H as (tp & TP & H).
  apply bind_ok in H. destruct H as (tc & TC & H).
  change (p_creator (set_mig_quote_fee (set_mig_base_fee (w_pool w) fb) fq)) with (p_creator (w_pool w)) in H.
  destruct (if tc <? tp then _ else _) as [[[first second] o1] o2] eqn:OR.
  apply bind_ok in H. destruct H as (t1 & T1 & H).
  apply bind_ok in H. destruct H as (liq1 & L1 & H). apply sadd_ok in L1. destruct L1 as (-> & _).
  apply bind_ok in H. destruct H as (vp1 & V1 & H).
  apply bind_ok in H. destruct H as (u3 & G1 & H). apply require_ok in G1.
  apply bind_ok in H. destruct H as (w1 & W1 & H).
  apply bind_ok in H. destruct H as (w2 & W2 & H).
  apply bind_ok in H. destruct H as (lb & LB & H). apply ssub_ok in LB. destruct LB as (-> & LB).
  apply bind_ok in H. destruct H as (lq & LQ & H). apply ssub_ok in LQ. destruct LQ as (-> & LQ).
  apply bind_ok in H. destruct H as (liq2 & L2 & H).
  apply bind_ok in H. destruct H as (w3 & W3 & H).
  apply bind_ok in H. destruct H as (w6 & W6 & H). apply Ok_inj in H.
  apply burn_rest_ok in W6. destruct W6 as (b & sup & l' & E6 & _). subst w6 w'.
  exists fb, fq, eb, eq, (t1 + dead), liq2.
  split; [exact P|]. split; [exact O|]. split; [exact S|]. split; [lia|]. split; [lia|].
  split; [exact L2|].
  unfold pay_base, pay_quote, log in W1, W2.
  apply bind_ok in W1. destruct W1 as (a1 & _ & W1). apply Ok_inj in W1. subst w1.
  apply bind_ok in W2. destruct W2 as (a2 & _ & W2). apply Ok_inj in W2. subst w2.
  destruct (0 <? liq2) eqn:L2P.
  - split; [intros _|lia].
    apply bind_ok in W3. destruct W3 as (s2 & _ & W3).
    apply bind_ok in W3. destruct W3 as (b1 & _ & W3).
    apply bind_ok in W3. destruct W3 as (b2 & _ & W3).
    apply bind_ok in W3. destruct W3 as (b3 & _ & W3).
    apply bind_ok in W3. destruct W3 as (y1 & Y1 & W3).
    apply bind_ok in W3. destruct W3 as (y2 & Y2 & W3). apply Ok_inj in W3.
    unfold pay_base, pay_quote, log in Y1, Y2.
    apply bind_ok in Y1. destruct Y1 as (a3 & _ & Y1). apply Ok_inj in Y1. subst y1.
    apply bind_ok in Y2. destruct Y2 as (a4 & _ & Y2). apply Ok_inj in Y2. subst y2.
    subst w3. simpl. split; reflexivity.
  - split; [lia|intros _]. apply Ok_inj in W3. subst w3. simpl. split; reflexivity.
Qed.

(** The base tokens reserved for migration match the quote tokens, after the protocol's cut of both. *)
Lemma base_matches_quote w fb fq eb eq : reachable w -> p_progress (w_pool w) = 2 ->
  c_migration_option (w_config w) = 1 ->
  get_migration_handler 1 (c_migrated_collect_mode (w_config w)) = Concentrated ->
  migration_split w Concentrated = Ok (fb, fq, eb, eq) ->
  let s := c_mig_price (w_config w) in
  MIN_SQRT_PRICE < s < MAX_SQRT_PRICE
  /\ eq * Q128 / (s - MIN_SQRT_PRICE) * (MAX_SQRT_PRICE - s) <= eb * (s * MAX_SQRT_PRICE).
Proof.
  intros R P O HH S s. pose proof (reachable_inv _ R) as I.
  pose proof (created_cfg_ok _ (iv_created _ I)) as K.
  destruct (split_ok _ _ _ _ _ _ I S) as (ib & iq & -> & -> & FB & FQ & IQ & _ & _ & IB & PF).
  specialize (IB eq_refl).
  destruct (created_mig _ (iv_created _ I)) as (qa & AM & _).
  rewrite O, HH in AM.
  pose proof (iv_base _ I) as BO. unfold base_owed in BO. rewrite P in BO. cbn [Z.eqb Pos.eqb] in BO.
  pose proof (ok_threshold _ K) as KT. pose proof (ok_mig_max _ K) as KM.
  pose proof (ok_start_min _ K) as KS. pose proof (co_mig_lo _ _ (ok_curve _ K)) as KL.
  fold s in KM, KL, PF, AM.
  assert (M0 : 0 < MIN_SQRT_PRICE) by reflexivity. pose proof Q128_pos as QP.
  unfold migration_amounts_1 in AM. apply bind_ok in AM. destruct AM as ([q f] & GQ & AM). cbn [fst] in AM.
  apply (mig_quote_eq _ _ _ K) in GQ. destruct GQ as (Q1 & _ & Q2 & _). rewrite <- IQ in Q1. subst q.
  apply bind_ok in AM. destruct AM as (l & L & AM).
  apply bind_ok in AM. destruct AM as (b & B & AM). apply bind_ok in AM. destruct AM as (u & U & AM).
  apply bind_ok in AM. destruct AM as (b' & B' & AM). apply scast_ok in B'. apply Ok_inj in AM.
  destruct B' as (-> & BU). apply pair_inj in AM. destruct AM as (AM & _).
  unfold liquidity_from_delta_quote in L. rewrite ssub_intro in L by lia. cbn [bind] in L.
  rewrite sdiv_intro in L by lia. cbn [bind] in L. apply scast_ok in L. destruct L as (-> & L).
  apply delta_base_256_ok in B. destruct B as (_ & B1 & B2 & _). cbn [divr] in B2.
  unfold migration_protocol_fees in PF.
  apply bind_ok in PF. destruct PF as (fq' & FQE & PF).
  apply bind_ok in PF. destruct PF as (l' & L' & PF).
  apply bind_ok in PF. destruct PF as (fb' & FBE & PF). apply Ok_inj in PF. apply pair_inj in PF.
  destruct PF as (-> & ->). clear FQE.
  unfold liquidity_from_delta_quote in L'. rewrite ssub_intro in L' by lia. cbn [bind] in L'.
  rewrite sdiv_intro in L' by lia. cbn [bind] in L'. apply scast_ok in L'. destruct L' as (-> & L').
  apply delta_base_ok in FBE. destruct FBE as (_ & _ & FB2 & _). cbn [divr] in FB2.
  split; [lia|].
  set (d := s - MIN_SQRT_PRICE) in *. assert (D : 0 < d) by (unfold d; lia).
  set (n := MAX_SQRT_PRICE - s) in *. assert (N : 0 <= n) by (unfold n; lia).
  set (m := s * MAX_SQRT_PRICE) in *. clearbody m.
  pose proof (cdiv_ub (iq * Q128 / d * n) m B1) as CU. rewrite <- B2 in CU.
  pose proof (div_lb (fq * Q128 / d * n) m B1) as CL. rewrite <- FB2 in CL.
  assert (SUP : (iq - fq) * Q128 / d + fq * Q128 / d <= iq * Q128 / d).
  { apply div_ge; [exact D|]. pose proof (div_lb (fq * Q128) d D). pose proof (div_lb ((iq - fq) * Q128) d D). lia. }
  assert (IBB : b <= ib) by lia.
  assert (X1 : b * m <= ib * m) by (apply Z.mul_le_mono_nonneg_r; lia).
  assert (X2 : ((iq - fq) * Q128 / d + fq * Q128 / d) * n <= iq * Q128 / d * n)
    by (apply Z.mul_le_mono_nonneg_r; lia).
  lia.
Qed.

(** Less than one quote unit, or less than the price of one base unit, is left over: [arith]. *)
Lemma untaken_arith Q D N M eb eq d1b d1q l1 l2 d2q u :
  0 < D < Q -> 0 < N -> 0 < M ->
  eq * Q / D * N <= eb * M ->
  ceil_frac (l1 * N) M d1b -> ceil_frac (l1 * D) Q d1q ->
  ~ ((l2 + 1) * N <= (eb - d1b) * M /\ (l2 + 1) * D <= (eq - d1q) * Q) ->
  l2 * D <= d2q * Q -> u = eq - d1q - d2q ->
  u * (Q * N) < D * (M + 2 * N).
Proof.
  intros D0 N0 M0 F (B1 & B2) (Q1 & Q2) MX L2 ->.
  set (L := eq * Q / D) in *. 
  assert (LD : eq * Q < (L + 1) * D).
  { unfold L. pose proof (Z.mul_succ_div_gt (eq * Q) D ltac:(lia)). lia. }
  clearbody L.
  destruct (Z_lt_le_dec ((eq - d1q) * Q) ((l2 + 1) * D)) as [C|C].
  - assert (U : (eq - d1q - d2q) * Q < 1 * Q) by lia.
    assert (U1 : eq - d1q - d2q < 1) by (apply Z.mul_lt_mono_pos_r with Q; lia).
    assert (0 < D * (M + 2 * N)) by (apply Z.mul_pos_pos; lia).
    assert (0 < Q * N) by (apply Z.mul_pos_pos; lia).
    assert ((eq - d1q - d2q) * (Q * N) <= 0 * (Q * N)) by (apply Z.mul_le_mono_nonneg_r; lia).
    lia.
  - assert (C2 : (eb - d1b) * M < (l2 + 1) * N) by lia.
    assert (K : (L - l1 - l2 + 1) * N < M + 2 * N) by lia.
    assert (U : (eq - d1q - d2q) * Q < (L - l1 - l2 + 1) * D) by lia.
    assert (U2 : (eq - d1q - d2q) * Q * N < (L - l1 - l2 + 1) * D * N) by (apply Z.mul_lt_mono_pos_r; lia).
    assert (K2 : D * ((L - l1 - l2 + 1) * N) < D * (M + 2 * N)) by (apply Z.mul_lt_mono_pos_l; lia).
    lia.
Qed.

(** A base unit is worth sqrt_price^2 / 2^128 quote units. The bound below reads: the quote tokens
    left behind are fewer than (s - min) / (max - s) * (s * max + 2 (max - s)) / 2^128, which for
    prices far from the ends of the range is the price s^2 / 2^128 of one base unit, i.e. of
    10^-6 to 10^-9 tokens. *)
Theorem C69_concentrated_takes_all : forall w x now w',
  reachable w -> exec w (OMigrateV2 x now) = Ok w' ->
  c_migrated_collect_mode (w_config w) <> 2 ->
  let s := c_mig_price (w_config w) in
  charged s x (map po_total (w_positions w')) ->
  quote_untaken w (OMigrateV2 x now) * (Q128 * (MAX_SQRT_PRICE - s))
    < (s - MIN_SQRT_PRICE) * (s * MAX_SQRT_PRICE + 2 * (MAX_SQRT_PRICE - s)).
Proof.
  intros w x now w' R H CM s CH. pose proof (reachable_inv _ R) as I. pose proof H as H0.
  destruct (bk_migrate_v2 _ _ _ _ R H0) as (BK & _).
  pose proof (bk_quote _ _ _ _ _ _ BK) as BQ.
  pose proof (exec_args _ _ _ H) as A. unfold exec in H. rewrite A in H. cbn [require bind] in H.
  pose proof H as HE. apply migrate_v2_eff in HE.
  destruct HE as (fb' & fq' & eb' & eq' & l2' & b & mb & h & HH' & P2 & _ & S' & _ & _ & _ & E & _).
  apply migrate_v2_quote in H. cbv zeta in H. fold s in H.
  destruct H as (fb & fq & eb & eq & l1 & l2 & _ & O & S & D1 & D2 & L2 & Y & N).
  assert (HH : get_migration_handler 1 (c_migrated_collect_mode (w_config w)) = Concentrated).
  { unfold get_migration_handler. simpl. destruct (c_migrated_collect_mode (w_config w) =? 2) eqn:X; [lia|reflexivity]. }
  rewrite HH' in S'. rewrite HH in *. rewrite S in S'. apply Ok_inj in S'. inversion S'; subst fb' fq' eb' eq'; clear S'.
  destruct (base_matches_quote w _ _ _ _ R P2 O HH S) as (PR & F). fold s in PR, F.
  destruct (split_ok _ _ _ _ _ _ I S) as (ib & iq & EB & EQ & FB & FQ & IQ & _).
  assert (U : quote_untaken w (OMigrateV2 x now) = eq - (w_qvault w - w_qvault w')).
  { unfold quote_untaken. rewrite H0. simpl is_ok. cbv iota.
    rewrite (paid_quote _ _ _ H0) by eauto. unfold step. rewrite H0, (ef_pool _ _ _ _ E). simpl. lia. }
  cbn [calculate_liquidity_delta] in L2.
  apply (concentrated_exact (eb - x_d1b x) (eq - x_d1q x) s l2 ltac:(lia) ltac:(lia) PR) in L2. destruct L2 as (L0 & L2).
  assert (MX : ~ ((l2 + 1) * (MAX_SQRT_PRICE - s) <= (eb - x_d1b x) * (s * MAX_SQRT_PRICE)
                  /\ (l2 + 1) * (s - MIN_SQRT_PRICE) <= (eq - x_d1q x) * Q128)).
  { intros X. apply L2 in X. lia. }
  assert (M0 : 0 < MIN_SQRT_PRICE) by reflexivity.
  assert (M1 : MAX_SQRT_PRICE < Q128) by reflexivity.
  assert (SM : 0 < s * MAX_SQRT_PRICE) by (apply Z.mul_pos_pos; lia).
  destruct (Z_lt_le_dec 0 l2) as [C|C].
  - destruct (Y C) as (PO & QV). rewrite PO in CH. cbn [charged damm_takes] in CH.
    destruct CH as ((T1 & T2) & (_ & T3)). unfold range_base, range_quote in T1, T2, T3.
    apply (untaken_arith Q128 (s - MIN_SQRT_PRICE) (MAX_SQRT_PRICE - s) (s * MAX_SQRT_PRICE)
      eb eq (x_d1b x) (x_d1q x) l1 l2 (x_d2q x)); auto; try lia. apply T3.
  - destruct (N C) as (PO & QV). rewrite PO in CH. cbn [charged damm_takes] in CH.
    destruct CH as (T1 & T2). unfold range_base, range_quote in T1, T2.
    assert (l2 = 0) by lia. subst l2.
    apply (untaken_arith Q128 (s - MIN_SQRT_PRICE) (MAX_SQRT_PRICE - s) (s * MAX_SQRT_PRICE)
      eb eq (x_d1b x) (x_d1q x) l1 0 0); auto; lia.
Qed.

(** ** Cases *)
Definition faithfulA : damm_v2_ext :=
  mkExt true 20056568052905 62874000000 20056568052905 62874000000
    20714935219466573231265082605509 8595672022674 26946000000 true.

(** A pool completed and migrated to a faithful concentrated pool. *)
Example C69_case_takes_all : reachable readyA
  /\ c_migrated_collect_mode (w_config readyA) <> 2
  /\ exists w', exec readyA (OMigrateV2 faithfulA 1700001000) = Ok w'
     /\ charged (c_mig_price (w_config readyA)) faithfulA (map po_total (w_positions w'))
     /\ length (w_positions w') = 2%nat
     /\ quote_untaken readyA (OMigrateV2 faithfulA 1700001000) = 0.
Proof.
  split; [exact (proj1 C52_case_concentrated)|]. split; [vm_compute; discriminate|].
  destruct (exec readyA (OMigrateV2 faithfulA 1700001000)) as [w'|e] eqn:E.
  2: { exfalso. assert (X : is_ok (exec readyA (OMigrateV2 faithfulA 1700001000)) = true) by (vm_compute; reflexivity).
       rewrite E in X. discriminate. }
  assert (PO : (do w' <- exec readyA (OMigrateV2 faithfulA 1700001000) ;; Ok (map po_total (w_positions w')))
     = Ok (map po_total (w_positions w'))) by (rewrite E; reflexivity).
  exists w'. split; [reflexivity|].
  rewrite <- (map_length po_total (w_positions w')).
  set (l := map po_total (w_positions w')) in *. clearbody l. vm_compute in PO. apply Ok_inj in PO.
  rewrite <- PO. split; [|split; [reflexivity|vm_compute; reflexivity]].
  cbn [charged]. vm_compute. repeat split; discriminate.
Qed.
Print Assumptions C69_concentrated_takes_all.
