(** * C76: what the protocol takes of the liquidity when a pool migrates. *)
From Coq Require Import ZArith QArith List Bool Lia ZifyBool.
From Verif Require Import Base MathModel CurveModel FeeModel ConfigModel PoolModel TxModel SystemModel Spec
  Lib CurveProofs CurveLoops Potential CalcProofs ConfigProofs FeeProofs SwapProofs InvProofs InvOps InvReach
  Fixtures FixturesReach Effects Frame PropLife Bounds PropMath PropConfig PropVest PropMig PropOpen.
Import ListNotations.
Open Scope Z_scope.
#[local] Arguments Z.pow : simpl never.
#[local] Arguments Z.testbit : simpl never.

(** ** Specification *)

(** The instructions that migrate. *)
Definition is_migration (o : op) : Prop :=
  match o with OMigrateV1 _ _ | OMigrateV2 _ _ => True | _ => False end.

(** The new pool is a constant-product pool (DAMM v1, or DAMM v2 that compounds its fees). *)
Definition constant_product (c : config) : Prop :=
  c_migration_option c = 0 \/ c_migrated_collect_mode c = 2.

(** What the curve set aside for the new pool, before the protocol takes its part. *)
Definition aside_base (c : config) : Z := c_base_threshold c.
Definition aside_quote (c : config) : Z := c_threshold c - migration_fee_total c.

(** ** Arithmetic *)
Lemma base_share p q B fb :
  MIN_SQRT_PRICE < p < MAX_SQRT_PRICE -> 0 <= q ->
  let d := p - MIN_SQRT_PRICE in let M := MAX_SQRT_PRICE - p in let N := p * MAX_SQRT_PRICE in
  q * 2 ^ 128 / d * M <= B * N ->
  fb * N <= q * 20 / 10000 * 2 ^ 128 / d * M ->
  10000 * fb <= 20 * B.
Proof.
  intros P Q d M N HB HF.
  assert (M0 : 0 < MIN_SQRT_PRICE) by reflexivity.
  assert (D : 0 < d) by (unfold d; lia). assert (M1 : 0 < M) by (unfold M; lia).
  assert (MN : 19 * M < N).
  { unfold N, M. apply Z.lt_le_trans with (19 * MAX_SQRT_PRICE); [lia|].
    apply Z.mul_le_mono_nonneg_r; [unfold MAX_SQRT_PRICE; lia|]. unfold MIN_SQRT_PRICE in P. lia. }
  assert (NP : 0 < N) by lia.
  set (T := 2 ^ 128) in *. assert (TP : 0 < T) by reflexivity. clearbody T.
  pose proof (div_lb (q * 20) 10000 ltac:(lia)) as Y. set (y := q * 20 / 10000) in *. clearbody y.
  pose proof (div_lb (y * T) d D) as E. set (e := y * T / d) in *. clearbody e.
  assert (A : q * T < (q * T / d + 1) * d) by (apply div_lt; lia). set (a := q * T / d) in *. clearbody a.
  assert (EA : 10000 * e <= 20 * a + 19).
  { assert (X : 10000 * e * d < (20 * a + 20) * d).
    { apply Z.le_lt_trans with (10000 * (y * T)); [lia|].
      apply Z.le_lt_trans with (20 * (q * T)).
      - replace (10000 * (y * T)) with ((y * 10000) * T) by ring. replace (20 * (q * T)) with ((q * 20) * T) by ring.
        apply Z.mul_le_mono_nonneg_r; lia.
      - replace ((20 * a + 20) * d) with (20 * ((a + 1) * d)) by ring. lia. }
    apply Z.mul_lt_mono_pos_r in X; lia. }
  assert (X : 10000 * fb * N < (20 * B + 1) * N).
  { apply Z.le_lt_trans with ((20 * a + 19) * M).
    - apply Z.le_trans with (10000 * e * M); [lia|]. apply Z.mul_le_mono_nonneg_r; lia.
    - replace ((20 * a + 19) * M) with (20 * (a * M) + 19 * M) by ring.
      replace ((20 * B + 1) * N) with (20 * (B * N) + N) by ring. lia. }
  apply Z.mul_lt_mono_pos_r in X; lia.
Qed.

Lemma split_share w h fb fq eb eq : reachable w -> mig_handler (w_config w) = h ->
  migration_split w h = Ok (fb, fq, eb, eq) ->
  fq = aside_quote (w_config w) * 20 / 10000
  /\ (h = Compounding -> fb = aside_base (w_config w) * 20 / 10000)
  /\ 0 <= fb /\ 10000 * fb <= 20 * aside_base (w_config w).
Proof.
  intros R HH S. pose proof (reachable_inv _ R) as I. pose proof (created_cfg_ok _ (iv_created _ I)) as K.
  destruct (created_mig _ (iv_created _ I)) as (qa & AM & _ & _). fold (mig_handler (w_config w)) in AM.
  rewrite HH in AM. destruct (split_ok _ _ _ _ _ _ I S) as (ib & iq & -> & -> & FB & FQ & IQ & _ & CP & _ & PF).
  unfold aside_quote, aside_base. rewrite <- IQ.
  unfold migration_protocol_fees in PF. destruct h.
  - specialize (CP eq_refl). subst ib.
    apply bind_ok in PF. destruct PF as (x & X & PF). apply mul_div_cast_down in X.
    apply bind_ok in PF. destruct PF as (y & Y & PF). apply mul_div_cast_down in Y. apply Ok_inj in PF.
    apply pair_inj in PF. destruct PF as (<- & <-). destruct X as (-> & _), Y as (-> & _).
    change PROTOCOL_LIQUIDITY_MIGRATION_FEE_BPS with 20 in *. change BASIS_POINT_MAX with 10000 in *.
    split; [reflexivity|]. split; [reflexivity|]. split; [lia|].
    pose proof (div_lb (c_base_threshold (w_config w) * 20) 10000 ltac:(lia)). lia.
  - apply bind_ok in PF. destruct PF as (y & Y & PF). apply mul_div_cast_down in Y. destruct Y as (-> & _).
    apply bind_ok in PF. destruct PF as (l' & L' & PF). apply bind_ok in PF. destruct PF as (x & X & PF).
    apply Ok_inj in PF. apply pair_inj in PF. destruct PF as (<- & <-).
    change PROTOCOL_LIQUIDITY_MIGRATION_FEE_BPS with 20 in *. change BASIS_POINT_MAX with 10000 in *.
    split; [reflexivity|]. split; [discriminate|]. split; [lia|].
    pose proof (ok_start_min _ K) as KS. pose proof (co_mig_lo _ _ (ok_curve _ K)) as KL.
    pose proof (ok_mig_max _ K) as KM. assert (M0 : 0 < MIN_SQRT_PRICE) by reflexivity.
    unfold migration_amounts_1 in AM. apply bind_ok in AM. destruct AM as ([q f] & Q & AM).
    apply (mig_quote_eq _ _ _ K) in Q. destruct Q as (-> & _ & Q0 & _). cbn [fst] in AM. rewrite <- IQ in *.
    apply bind_ok in AM. destruct AM as (l0 & L0 & AM). apply bind_ok in AM. destruct AM as (b & B & AM).
    apply bind_ok in AM. destruct AM as (u & _ & AM). apply bind_ok in AM. destruct AM as (b' & B' & AM).
    apply scast_ok in B'. destruct B' as (-> & _). apply Ok_inj in AM. inversion AM; subst b qa; clear AM u.
    unfold liquidity_from_delta_quote in L', L0. rewrite ssub_intro in L', L0 by lia. cbn [bind] in L', L0.
    rewrite sdiv_intro in L', L0 by lia. cbn [bind] in L', L0. apply scast_ok in L', L0.
    destruct L' as (-> & _), L0 as (-> & _).
    apply delta_base_256_ok in B. destruct B as (_ & B1 & B2 & _). cbn [divr] in B2.
    apply delta_base_ok in X. destruct X as (_ & _ & X & _). cbn [divr] in X.
    apply (base_share (c_mig_price (w_config w)) iq); try lia.
    + change (2 ^ 128) with Q128. rewrite B2. apply cdiv_ub. exact B1.
    + change (2 ^ 128) with Q128. rewrite X. apply div_lb. exact B1.
Qed.

(** ** C76 *)

(** Whenever a pool migrates, the protocol's part is a fifth of a percent, rounded down, of the quote
    tokens set aside, and of the base tokens set aside exactly as much for a constant-product pool and
    at most as much for a concentrated one. *)
Theorem C76_protocol_share : forall w o w', reachable w -> is_migration o -> exec w o = Ok w' ->
  let c := w_config w in
  p_mig_quote_fee (w_pool w') = aside_quote c * 20 / 10000
  /\ (constant_product c -> p_mig_base_fee (w_pool w') = aside_base c * 20 / 10000)
  /\ 0 <= p_mig_base_fee (w_pool w') /\ 10000 * p_mig_base_fee (w_pool w') <= 20 * aside_base c.
Proof.
  intros w o w' R IM H c. pose proof (exec_args _ _ _ H) as A. unfold exec in H. rewrite A in H. cbn [require bind] in H.
  destruct o; try contradiction.
  - apply migrate_v1_eff in H. destruct H as (m & m' & fb & fq & eb & eq & b & mb & _ & _ & O & _ & S & E & _).
    assert (HH : mig_handler c = Compounding) by (unfold mig_handler, get_migration_handler, c; rewrite O; reflexivity).
    destruct (split_share _ _ _ _ _ _ R HH S) as (X1 & X2 & X3 & X4).
    rewrite (ef_pool _ _ _ _ E). unfold migrated_pool. simpl. fold c in X1, X2, X4. auto.
  - apply migrate_v2_eff in H. destruct H as (fb & fq & eb & eq & l2 & b & mb & h & HD & _ & O & S & _ & _ & _ & E & _).
    assert (HH : mig_handler c = h) by (unfold mig_handler; unfold c; rewrite O; auto).
    destruct (split_share _ _ _ _ _ _ R HH S) as (X1 & X2 & X3 & X4).
    rewrite (ef_pool _ _ _ _ E). unfold migrated_pool. simpl. fold c in X1, X2, X4.
    split; [exact X1|]. split; [|auto]. intros [C|C]; [unfold c in C; lia|].
    apply X2. rewrite HD. unfold get_migration_handler. fold c. rewrite C. reflexivity.
Qed.

(** The liquidity a concentrated pool opens with is at least 99.8 percent of what all the quote tokens
    set aside would have bought, to within a hundredth of a percent: the share lost, in basis points
    rounded down, is at most 20. *)
Theorem C76_liquidity_share : forall c liq dead, created c -> ~ constant_product c ->
  shared_liquidity c liq dead ->
  let whole := aside_quote c * 2 ^ 128 / (c_mig_price c - MIN_SQRT_PRICE) in
  0 <= liq <= whole /\ 0 < whole /\ 10000 * (whole - liq) / whole <= 20.
Proof.
  intros c liq dead C NC SL whole. pose proof (created_cfg_ok _ C) as K.
  destruct (mig_fee_parts _ K) as (F0 & _ & _ & _ & F1).
  assert (Q : 0 < aside_quote c).
  { unfold aside_quote, migration_fee_total. pose proof (ok_threshold _ K). pose proof (ok_mfp _ K) as MF; unfold MAX_MIGRATION_FEE_PERCENTAGE in MF.
    assert (c_threshold c * c_migration_fee_pct c / 100 < c_threshold c); [|lia].
    apply Z.div_lt_upper_bound; [lia|]. replace (100 * c_threshold c) with (c_threshold c * 100) by ring.
    apply Z.mul_lt_mono_pos_l; lia. }
  unfold shared_liquidity in SL. destruct (c_migrated_collect_mode c =? 2) eqn:M2.
  { exfalso. apply NC. right. lia. }
  destruct SL as (_ & S1 & S2). unfold seed_quote in S1, S2. fold (aside_quote c) in S1, S2.
  pose proof (less_protocol_bounds (aside_quote c) ltac:(lia)) as ((L1 & _) & L2).
  pose proof (ok_start_min _ K) as KS. pose proof (co_mig_lo _ _ (ok_curve _ K)) as KL.
  pose proof (ok_mig_max _ K) as KM. assert (M0 : 0 < MIN_SQRT_PRICE) by reflexivity.
  assert (D : 0 < c_mig_price c - MIN_SQRT_PRICE < 2 ^ 97).
  { split; [lia|]. apply Z.lt_trans with MAX_SQRT_PRICE; [lia|reflexivity]. }
  unfold whole. clear whole. set (q := aside_quote c) in *. set (d := c_mig_price c - MIN_SQRT_PRICE) in *.
  set (e := less_protocol q) in *. clearbody q d e. clear - Q S1 S2 L1 L2 D.
  assert (W1 : q * 2 ^ 128 / d * d <= q * 2 ^ 128) by (apply div_lb; lia).
  assert (W2 : q * 2 ^ 128 < (q * 2 ^ 128 / d + 1) * d) by (apply div_lt; lia).
  set (a := q * 2 ^ 128 / d) in *. clearbody a. change (2 ^ 128) with (2 ^ 31 * 2 ^ 97) in *.
  set (T := 2 ^ 97) in *. assert (TP : 0 < T) by reflexivity. clearbody T. change (2 ^ 31) with 2147483648 in *.
  assert (A0 : 2147483648 <= a + 1).
  { apply Z.lt_le_incl. apply Z.mul_lt_mono_pos_r with d; [lia|]. nia. }
  assert (LA : liq <= a).
  { assert (liq < a + 1); [|lia]. apply Z.mul_lt_mono_pos_r with d; [lia|]. nia. }
  assert (L0 : 0 <= liq).
  { assert (0 < liq + 1); [|lia]. apply Z.mul_lt_mono_pos_r with d; [lia|]. nia. }
  split; [lia|]. split; [lia|].
  assert (X : 9980 * a < 10000 * (liq + 1)).
  { apply Z.mul_lt_mono_pos_r with d; [lia|]. nia. }
  assert (10000 * (a - liq) / a < 21); [|lia]. apply Z.div_lt_upper_bound; lia.
Qed.

(** A DAMM v1 pool does not open above the price at which the curve ended when the quote tokens set
    aside are a multiple of 500, so that the protocol's part of them is not rounded... *)
Theorem C76_price_not_raised : forall c, created c -> aside_quote c mod 500 = 0 ->
  seed_quote c * aside_base c <= aside_quote c * seed_base c.
Proof.
  intros c C M. pose proof (created_cfg_ok _ C) as K. pose proof (ok_base _ K) as B.
  destruct (mig_fee_parts _ K) as (F0 & _ & _ & _ & F1).
  assert (Q0 : 0 <= aside_quote c).
  { unfold aside_quote, migration_fee_total. pose proof (ok_threshold _ K). pose proof (ok_mfp _ K) as MF.
    unfold MAX_MIGRATION_FEE_PERCENTAGE in MF.
    assert (c_threshold c * c_migration_fee_pct c / 100 < c_threshold c); [|lia].
    apply Z.div_lt_upper_bound; [lia|]. replace (100 * c_threshold c) with (c_threshold c * 100) by ring.
    apply Z.mul_lt_mono_pos_l; lia. }
  unfold seed_quote, seed_base. fold (aside_quote c). unfold aside_base.
  pose proof (less_protocol_bounds (c_base_threshold c) ltac:(lia)) as ((B1 & _) & _).
  pose proof (Z.div_mod (aside_quote c) 500 ltac:(lia)) as E. rewrite M in E.
  set (q := aside_quote c) in *. set (b := c_base_threshold c) in *. clearbody q b.
  set (k := q / 500) in *. clearbody k.
  assert (L : less_protocol q = 499 * k).
  { unfold less_protocol. rewrite E. replace ((500 * k + 0) * 20) with (k * 10000) by ring.
    rewrite Z.div_mul by lia. lia. }
  rewrite L, E. set (e := less_protocol b) in *. clearbody e. nia.
Qed.

(** ...but in general it can open slightly above it: the rounding is bounded (C58) but not always in
    the direction that the repository's test of this fee expects. *)
Definition fx_paramsE : config_params :=
  {| q_base_fee := mkBaseFee 100000000 20 60 500 1;
     q_dynamic_fee := None;
     q_collect_fee_mode := 1; q_migration_option := 0; q_activation_type := 0;
     q_token_type := 0; q_token_decimal := 9;
     q_partner_liq_pct := 40; q_partner_perm_pct := 20; q_creator_liq_pct := 30;
     q_creator_perm_pct := 10;
     q_threshold := 100000000499; q_start := Q64_ / 32;
     q_vesting := mkLockedVesting 0 0 0 0 0;
     q_migration_fee_option := 0; q_token_supply := None;
     q_creator_trading_fee_pct := 50; q_token_update_authority := 3;
     q_migration_fee_pct := 0; q_creator_migration_fee_pct := 0;
     q_migrated_collect_mode := 0; q_migrated_dynamic_fee := 0; q_migrated_pool_fee_bps := 0;
     q_pool_creation_fee := 0;
     q_partner_vesting := no_vest; q_creator_vesting := no_vest;
     q_migrated_base_fee_mode := 0; q_mc_number_of_period := 0; q_mc_price_step := 0;
     q_mc_expiration := 0; q_mc_reduction := 0; q_first_swap_min_fee := false;
     q_compounding_fee_bps := 0; q_curve := fx_curve |}.
Definition cfgE : config := Eval vm_compute in get dummy_config (fx_config fx_paramsE).

Theorem C76_price_never_raised_refuted : exists c, created c /\ c_migration_option c = 0
  /\ aside_quote c * seed_base c < seed_quote c * aside_base c.
Proof.
  exists cfgE. split; [|split; [reflexivity|vm_compute; reflexivity]].
  exists fx_paramsE, true, true, 1700000000, 11, 22, 33. split; [typed|].
  split; [unfold u64ok; vm_compute; split; congruence|vm_compute; reflexivity].
Qed.

(** Concrete cases. *)
Example C76_case_v1 :
  let w := run wB [] in reachable w /\ aside_quote (w_config w) mod 500 = 0 /\ constant_product (w_config w).
Proof. split; [apply (reachB [])|]. split; [vm_compute; reflexivity|left; reflexivity]. Qed.
Example C76_case_v2 :
  let w := run wA (histA1 ++ histA2 ++ firstn 4 histA3) in let o := nth 4 histA3 OLeftover in
  reachable w /\ is_migration o /\ ~ constant_product (w_config w)
  /\ match exec w o with
     | Ok w' => (p_mig_quote_fee (w_pool w'), p_mig_base_fee (w_pool w')) = (180000000, 57419318788)
     | Err _ => False
     end.
Proof.
  split; [apply reachA|]. split; [exact Logic.I|]. split; [intros [H|H]; vm_compute in H; discriminate|].
  vm_compute. reflexivity.
Qed.
Example C76_case_liquidity : created cfgA /\ ~ constant_product cfgA
  /\ shared_liquidity cfgA (seed_quote cfgA * 2 ^ 128 / (c_mig_price cfgA - MIN_SQRT_PRICE)) 0.
Proof.
  split; [exact createdA|]. split; [intros [H|H]; vm_compute in H; discriminate|].
  vm_compute. repeat split; intros; discriminate.
Qed.

Print Assumptions C76_protocol_share.
Print Assumptions C76_liquidity_share.
Print Assumptions C76_price_not_raised.
Print Assumptions C76_price_never_raised_refuted.
