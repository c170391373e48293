(** * The fees of the migrated pool: C64. *)
From Coq Require Import ZArith List Bool Lia ZifyBool.
From Verif Require Import Base MathModel CurveModel FeeModel ConfigModel PoolModel TxModel
  SystemModel Spec Lib CurveProofs CurveLoops Potential CalcProofs ConfigProofs FeeProofs
  SwapProofs InvProofs InvOps InvReach Fixtures FixturesReach Effects Frame PropMath PropSched PropMig PropOpen MigFeeModel.
Import ListNotations.
Open Scope Z_scope.
#[local] Arguments Z.pow : simpl never.
#[local] Arguments Z.testbit : simpl never.

(** ** Specification *)

(** The number held by the bytes [off, off + len) of [data], lowest byte first: how the
    destination program reads its fee data. *)
Definition field (data : list Z) (off len : nat) : Z :=
  fold_right (fun b acc => b + 256 * acc) 0 (firstn len (skipn off data)).

(** The fee data says what the config says. Layout: opening fee (8 bytes, in billionths), number of
    periods (2), then for a schedule in time the period length (8), for one in price the price
    step (4) and the life time (4), then the reduction per period (8) and the kind (1). *)
Definition says (c : config) (data : list Z) : Prop :=
  length data = 27%nat /\ Forall (fun b => 0 <= b <= 255) data
  /\ field data 0 8 * 10000 = c_migrated_pool_fee_bps c * 1000000000
  /\ field data 26 1 = c_migrated_base_fee_mode c
  /\ ((c_migrated_base_fee_mode c = 0 \/ c_migrated_base_fee_mode c = 1)
      /\ field data 8 2 = 0 /\ field data 10 8 = 0 /\ field data 18 8 = 0
      \/ (c_migrated_base_fee_mode c = 3 \/ c_migrated_base_fee_mode c = 4)
      /\ field data 8 2 = c_mc_number_of_period c /\ field data 10 4 = c_mc_price_step c
      /\ field data 14 4 = c_mc_expiration c /\ field data 18 8 = c_mc_reduction c).

(** The highest number [f] with: the fee never goes below [f] billionths. *)
Definition lowest (c : config) (f : Z) : Prop :=
  let cliff := c_migrated_pool_fee_bps c * 100000 in
  let n := c_mc_number_of_period c in let r := c_mc_reduction c in
  ((c_migrated_base_fee_mode c = 0 \/ c_migrated_base_fee_mode c = 1) /\ f = cliff)
  \/ (c_migrated_base_fee_mode c = 3 /\ f = cliff - r * n)
  \/ (c_migrated_base_fee_mode c = 4
      /\ (f - 1) * 10000 ^ n < cliff * (10000 - r) ^ n < (f + 2) * 10000 ^ n).

(** The variable part of the fee at volatility [v]: ceil ((v * bin_step)^2 * control / 10^11). *)
Definition variable_part (d : dynamic_fee) (v : Z) : Z :=
  ((v * df_bin_step d) ^ 2 * df_vfc d + 99999999999) / 100000000000.

(** ** Bytes *)
Lemma le_length k x : length (le k x) = k.
Proof. revert x. induction k; intros x; simpl; auto. Qed.

Lemma le_bytes k x : Forall (fun b => 0 <= b <= 255) (le k x).
Proof.
  revert x. induction k; intros x; simpl; constructor; auto.
  pose proof (Z.mod_pos_bound x 256). lia.
Qed.

Lemma pow256 k : 256 ^ Z.of_nat (S k) = 256 * 256 ^ Z.of_nat k.
Proof. rewrite Nat2Z.inj_succ, Z.pow_succ_r; lia. Qed.

Lemma le_value k x : 0 <= x < 256 ^ Z.of_nat k -> fold_right (fun b acc => b + 256 * acc) 0 (le k x) = x.
Proof.
  revert x. induction k; intros x H.
  - change (256 ^ Z.of_nat 0) with 1 in H. simpl. lia.
  - rewrite pow256 in H. cbn [le fold_right]. rewrite IHk.
    + pose proof (Z.div_mod x 256). lia.
    + split; [apply Z.div_pos; lia|]. apply Z.div_lt_upper_bound; lia.
Qed.

Lemma unle_le k x l : 0 <= x < 256 ^ Z.of_nat k -> unle k (le k x ++ l) = Ok (x, l).
Proof.
  revert x. induction k; intros x H.
  - change (256 ^ Z.of_nat 0) with 1 in H. simpl. f_equal. f_equal. lia.
  - rewrite pow256 in H. cbn [le app unle]. rewrite IHk.
    + cbn [bind]. f_equal. f_equal. pose proof (Z.div_mod x 256). lia.
    + split; [apply Z.div_pos; lia|]. apply Z.div_lt_upper_bound; lia.
Qed.

Lemma field_at a k x b off : length a = off -> 0 <= x < 256 ^ Z.of_nat k -> field (a ++ le k x ++ b) off k = x.
Proof.
  intros L H. unfold field. subst off. rewrite skipn_app, skipn_all, Nat.sub_diag. cbn [skipn app].
  rewrite firstn_app, le_length, Nat.sub_diag. cbn [firstn]. rewrite app_nil_r.
  rewrite firstn_all2 by (rewrite le_length; lia). apply le_value. exact H.
Qed.

Lemma mc_round n s e r : u16ok n -> u16ok s -> u32ok e -> u64ok r ->
  exists data, mc_store n s e r = Ok data /\ mc_load data = Ok (n, s, e, r).
Proof.
  unfold u16ok, u32ok, u64ok, U16_MAX, U32_MAX, U64_MAX. intros N S E R.
  eexists. split.
  - unfold mc_store. rewrite !app_length, !le_length. reflexivity.
  - unfold mc_load. rewrite unle_le by (change (256 ^ Z.of_nat 2) with 65536; lia). cbn [bind snd fst].
    rewrite unle_le by (change (256 ^ Z.of_nat 2) with 65536; lia). cbn [bind snd fst].
    rewrite unle_le by (change (256 ^ Z.of_nat 4) with 4294967296; lia). cbn [bind snd fst].
    replace (le 8 r) with (le 8 r ++ []) by apply app_nil_r.
    rewrite unle_le by (change (256 ^ Z.of_nat 8) with 18446744073709551616; lia). reflexivity.
Qed.

(** ** What an accepted config says about the migrated pool *)
Record mig_fee_ok (c : config) : Prop := {
  mo_bps : 10 <= c_migrated_pool_fee_bps c <= 1000;
  mo_collect : c_migrated_collect_mode c = 0 \/ c_migrated_collect_mode c = 1 \/ c_migrated_collect_mode c = 2;
  mo_comp : (c_migrated_collect_mode c = 2 -> 0 < c_compounding_fee_bps c <= 10000)
            /\ (c_migrated_collect_mode c <> 2 -> c_compounding_fee_bps c = 0);
  mo_dyn : c_migrated_dynamic_fee c = 0 \/ c_migrated_dynamic_fee c = 1;
  mo_typed : u16ok (c_mc_number_of_period c) /\ u16ok (c_mc_price_step c) /\ u32ok (c_mc_expiration c)
             /\ u64ok (c_mc_reduction c);
  mo_mode : ((c_migrated_base_fee_mode c = 0 \/ c_migrated_base_fee_mode c = 1)
             /\ c_mc_number_of_period c = 0 /\ c_mc_price_step c = 0 /\ c_mc_expiration c = 0
             /\ c_mc_reduction c = 0)
         \/ ((c_migrated_base_fee_mode c = 3 \/ c_migrated_base_fee_mode c = 4)
             /\ 0 < c_mc_number_of_period c /\ 0 < c_mc_price_step c /\ 0 < c_mc_expiration c
             /\ 0 < c_mc_reduction c
             /\ exists mn, mc_by_period (c_migrated_base_fee_mode c) (c_migrated_pool_fee_bps c * 100000)
                   (c_mc_number_of_period c) (c_mc_reduction c) (c_mc_number_of_period c) = Ok mn
                   /\ 100000 <= mn)
}.

Lemma numerator_of_bps x : 0 <= x <= 65535 -> to_numerator x DAMM_V2_FEE_DENOMINATOR = Ok (x * 100000).
Proof.
  intros H. unfold to_numerator, DAMM_V2_FEE_DENOMINATOR, MAX_BASIS_POINT.
  rewrite smul_intro by (unfold U128_MAX; lia). cbn [bind].
  rewrite sdiv_intro by lia. cbn [bind].
  replace (x * 1000000000) with (x * 100000 * 10000) by lia. rewrite Z.div_mul by lia.
  apply scast_intro. unfold U64_MAX. lia.
Qed.

Lemma created_fee_option c : created c -> 0 <= c_migration_fee_option c <= 6.
Proof.
  intros H. apply created_inv in H.
  destruct H as (q & sup & spl & now & mig & sb & ba & fl & pre & post & qm & fc & lr & qa & bps
                 & T & _ & B).
  pose proof (cb_valid _ _ _ _ _ _ _ _ _ _ _ _ _ _ _ _ B) as V.
  apply validate_inv in V. destruct V as (_ & V).
  rewrite (cb_eq _ _ _ _ _ _ _ _ _ _ _ _ _ _ _ _ B). exact (va_mfo _ _ _ V).
Qed.

Lemma created_mig_fee c : created c -> c_migration_option c = 1 -> c_migration_fee_option c = 6 -> mig_fee_ok c.
Proof.
  intros H. apply created_inv in H.
  destruct H as (q & sup & spl & now & mig & sb & ba & fl & pre & post & qm & fc & lr & qa & bps
                 & T & _ & B).
  pose proof (cb_valid _ _ _ _ _ _ _ _ _ _ _ _ _ _ _ _ B) as V.
  apply validate_inv in V. destruct V as (_ & V). pose proof (va_v2 _ _ _ V) as V2.
  rewrite (cb_eq _ _ _ _ _ _ _ _ _ _ _ _ _ _ _ _ B). unfold build.
  cbn [c_migration_option c_migration_fee_option]. intros O F.
  destruct (V2 O) as (M & _). specialize (M F). clear V2 B.
  unfold migrated_fee_validate in M.
  apply bind_ok in M. destruct M as (u1 & M1 & M). apply bind_ok in M. destruct M as (u2 & M2 & M).
  apply bind_ok in M. destruct M as (u3 & M3 & M). apply bind_ok in M. destruct M as (u4 & M4 & M).
  apply require_ok in M1, M2, M4. unfold MIN_MIGRATED_POOL_FEE_BPS, MAX_MIGRATED_POOL_FEE_BPS, migrated_mode_ok in *.
  pose proof (pt_mcn _ T). pose proof (pt_mcs _ T). pose proof (pt_mce _ T). pose proof (pt_mcr _ T).
  cbv zeta in M. rewrite numerator_of_bps in M by lia. cbn [bind] in M.
  constructor; cbn [c_migrated_pool_fee_bps c_migrated_collect_mode c_compounding_fee_bps c_migrated_dynamic_fee
    c_mc_number_of_period c_mc_price_step c_mc_expiration c_mc_reduction c_migrated_base_fee_mode].
  - lia.
  - lia.
  - destruct (q_migrated_collect_mode q =? 2) eqn:E; apply require_ok in M3; unfold MAX_BASIS_POINT in M3; lia.
  - lia.
  - auto.
  - destruct ((q_migrated_base_fee_mode q =? 0) || (q_migrated_base_fee_mode q =? 1)) eqn:E.
    + apply require_ok in M. left. lia.
    + destruct ((q_migrated_base_fee_mode q =? 3) || (q_migrated_base_fee_mode q =? 4)) eqn:E2;
        [|destruct (q_migrated_base_fee_mode q =? 2); discriminate].
      right. unfold mc_validate in M. minv. split; [lia|]. split; [lia|]. split; [lia|]. split; [lia|]. split; [lia|].
      match goal with K : mc_by_period _ _ _ _ _ = Ok ?m |- _ => exists m; split; [exact K|] end.
      unfold DAMM_V2_MIN_FEE_NUMERATOR in *. lia.
Qed.

(** ** The schedule *)
Lemma expo_mc cliff red N mn : 0 <= cliff <= 100000000 -> 1 <= N <= 65535 -> 0 < red ->
  get_fee_in_period cliff red N = Ok mn -> 100000 <= mn ->
  let B := Q64 - red * Q64 / 10000 in
  1 <= red <= 10000 /\ expo B N
  /\ forall n, 0 <= n <= N -> get_fee_in_period cliff red n = Ok (decay B n * cliff / Q64).
Proof.
  intros CL NN RD MN M1 B. unfold get_fee_in_period in MN.
  rewrite sdiv_bps in MN. cbn [bind] in MN. apply bind_ok in MN. destruct MN as (B' & E & MN).
  apply ssub_ok in E. destruct E as (E & E1). change ONE_Q64 with Q64 in *. fold B in E. subst B'.
  apply bind_ok in MN. destruct MN as (r & R & MN). apply ok_or_ok in R.
  apply bind_ok in MN. destruct MN as (pr & P & MN). apply smul_ok in P. destruct P as (-> & P).
  apply scast_ok in MN. destruct MN as (-> & MN).
  assert (G : red * Q64 - 10000 < 10000 * (red * Q64 / 10000) <= red * Q64).
  { pose proof (Z.div_mod (red * Q64) 10000 ltac:(lia)).
    pose proof (Z.mod_pos_bound (red * Q64) 10000 ltac:(lia)). lia. }
  assert (G2 : red <= 10000).
  { unfold Q64 in *. lia. }
  split; [lia|].
  assert (D : decay B N = r).
  { unfold decay. replace (N =? 0) with false by lia. rewrite R. reflexivity. }
  assert (100000 * Q64 <= r * cliff).
  { apply div_ge; [unfold Q64; lia|]. lia. }
  assert (R0 : 0 <= r).
  { apply pow_nonneg in R; [exact R|]. unfold B. lia. }
  assert (r * cliff <= r * 100000000) by (apply Z.mul_le_mono_nonneg_l; lia).
  assert (EX : expo B N).
  { unfold expo. rewrite D. unfold B. repeat split; try lia. unfold Q64 in *. lia. }
  split; [exact EX|]. intros n Hn.
  unfold get_fee_in_period. rewrite sdiv_bps. cbn [bind]. rewrite ssub_intro by exact E1. cbn [bind].
  change ONE_Q64 with Q64. fold B. pose proof (b_lt _ _ EX) as BL.
  pose proof (decay_mono B N n N EX ltac:(lia) ltac:(lia)) as D1.
  pose proof (decay_mono B N 0 n EX ltac:(lia) ltac:(lia)) as D2.
  clear D. unfold expo in EX. change (decay B 0) with Q64 in D2.
  destruct (decay_spec B n) as (E0 & _ & _ & E2). { lia. } { lia. }
  assert (decay B n <> 0) by (unfold Q64 in *; lia). rewrite E2 by assumption. cbn [ok_or bind].
  set (x := decay B n) in *. clearbody x.
  assert (x * cliff <= Q64 * 100000000) by (apply Z.mul_le_mono_nonneg; lia).
  rewrite smul_intro by (unfold U128_MAX, Q64 in *; lia). cbn [bind].
  apply scast_intro. apply Z.div_le_upper_bound; unfold Q64, U64_MAX in *; lia.
Qed.

(** The fee of a pool whose fee falls with its price, after [n] price steps: the opening fee, never
    rising, never below 0.01%, never above the opening fee, constant after the last period. *)
Theorem C64_fee_falls : forall c, created c -> c_migration_option c = 1 -> c_migration_fee_option c = 6 ->
  let mode := c_migrated_base_fee_mode c in let last := c_mc_number_of_period c in let r := c_mc_reduction c in
  mode <> 0 -> mode <> 1 ->
  let cliff := c_migrated_pool_fee_bps c * 100000 in
  let fee := mc_by_period mode cliff last r in
  10 * 100000 <= cliff <= 1000 * 100000
  /\ fee 0 = Ok cliff
  /\ forall n m, 0 <= n <= m -> exists f g, fee n = Ok f /\ fee m = Ok g
     /\ 100000 <= g <= f /\ f <= cliff /\ (last <= n -> g = f)
     /\ (mode = 3 -> f = cliff - r * Z.min n last)
     /\ (mode <> 3 -> let k := Z.min n last in
          (f - 1) * 10000 ^ k < cliff * (10000 - r) ^ k < (f + 2) * 10000 ^ k).
Proof.
  intros c C O F mode last r M0 M1 cliff fee. destruct (created_mig_fee c C O F) as [B _ _ _ (T1 & _ & _ & T2) M].
  fold mode last r in M, T1, T2. fold cliff in M. assert (CB : cliff = c_migrated_pool_fee_bps c * 100000) by reflexivity. unfold u16ok, u64ok, U16_MAX, U64_MAX in *.
  destruct M as [M|(MM & L & _ & _ & RD & mn & MN & MN1)]; [lia|].
  split; [lia|].
  assert (K : exists g : Z -> Z, g 0 = cliff /\ g last = mn
    /\ (forall n m, 0 <= n <= m -> m <= last -> g m <= g n)
    /\ (forall n, 0 <= n <= last -> mc_by_period mode cliff last r n = Ok (g n))
    /\ (forall n, 0 <= n <= last -> (mode = 3 -> g n = cliff - r * n) /\ (mode <> 3 ->
          (g n - 1) * 10000 ^ n < cliff * (10000 - r) ^ n < (g n + 2) * 10000 ^ n))).
  { unfold mc_by_period in MN |- *. rewrite Z.min_id in MN. destruct MM as [MM|MM]; rewrite MM in *.
    - change (3 =? 3) with true in MN |- *. cbv iota in MN |- *.
      apply bind_ok in MN. destruct MN as (x & X & MN). apply smul_ok in X. destruct X as (-> & X).
      apply ssub_ok in MN. destruct MN as (-> & MN). exists (fun n => cliff - r * n).
      split; [lia|]. split; [lia|]. split; [intros; nia|]. split.
      + intros n H. rewrite Z.min_l by lia. assert (r * n <= r * last) by nia.
        rewrite smul_intro by lia. cbn [bind]. apply ssub_intro. lia.
      + intros n H. split; [auto|contradiction].
    - change (4 =? 3) with false in MN |- *. change (4 =? 4) with true in MN |- *. cbv iota in MN |- *.
      unfold U16_MAX in MN |- *. replace (last <=? 65535) with true in MN by lia. cbn [bind] in MN.
      destruct (expo_mc cliff r last mn ltac:(lia) ltac:(lia) ltac:(lia) MN ltac:(lia)) as (R1 & EX & V).
      set (Bb := Q64 - r * Q64 / 10000) in *. exists (fun n => decay Bb n * cliff / Q64).
      split. { change (decay Bb 0) with Q64. rewrite Z.mul_comm. apply Z.div_mul. discriminate. }
      split. { rewrite V in MN by lia. apply Ok_inj in MN. exact MN. }
      split. { intros n m H1 H2. apply Z.div_le_mono; [unfold Q64; lia|]. apply Z.mul_le_mono_nonneg_r; [lia|].
        eapply decay_mono; eauto. }
      split.
      + intros n H. rewrite Z.min_l by lia. replace (n <=? 65535) with true by lia. cbn [bind]. apply V. exact H.
      + intros n H. split; [discriminate|]. intros _.
        exact (expo_value cliff r last n _ ltac:(lia) R1 EX H eq_refl). }
  destruct K as (g & G0 & GL & GM & GV & GF).
  assert (FV : forall n, 0 <= n -> fee n = Ok (g (Z.min n last))).
  { intros n H. unfold fee. rewrite <- GV by lia. unfold mc_by_period. rewrite (Z.min_l (Z.min n last)) by lia. reflexivity. }
  split. { rewrite FV, Z.min_l by lia. rewrite G0. reflexivity. }
  intros n m H. exists (g (Z.min n last)), (g (Z.min m last)).
  split; [apply FV; lia|]. split; [apply FV; lia|].
  pose proof (GM (Z.min n last) (Z.min m last) ltac:(lia) ltac:(lia)).
  pose proof (GM (Z.min m last) last ltac:(lia) ltac:(lia)).
  pose proof (GM 0 (Z.min n last) ltac:(lia) ltac:(lia)).
  split; [lia|]. split; [lia|].
  split. { intros L1. rewrite !Z.min_r by lia. reflexivity. }
  apply GF. lia.
Qed.

(** ** The lowest fee and the dynamic fee *)
Lemma min_fee_lowest c : created c -> c_migration_option c = 1 -> c_migration_fee_option c = 6 ->
  exists mn, migrated_min_base_fee c = Ok mn /\ lowest c mn /\ 100000 <= mn <= 100000000.
Proof.
  intros C O F. pose proof (created_mig_fee c C O F) as K. unfold migrated_min_base_fee, lowest. cbv zeta.
  destruct (mo_mode _ K) as [(M & _)|(M & L & _ & _ & _ & mn & MN & MN1)].
  - replace ((c_migrated_base_fee_mode c =? 0) || (c_migrated_base_fee_mode c =? 1)) with true by lia.
    pose proof (mo_bps _ K). rewrite numerator_of_bps by lia. eexists. split; [reflexivity|]. split; [left; auto|lia].
  - pose proof (mo_bps _ K) as BB.
    pose proof (C64_fee_falls c C O F ltac:(lia) ltac:(lia)) as (_ & _ & FF).
    destruct (FF (c_mc_number_of_period c) (c_mc_number_of_period c) ltac:(lia)) as (f & g & F1 & _ & G1 & G2 & _ & L1 & L2).
    rewrite MN in F1. apply Ok_inj in F1. subst f. rewrite Z.min_id in L1, L2.
    replace ((c_migrated_base_fee_mode c =? 0) || (c_migrated_base_fee_mode c =? 1)) with false by lia.
    replace ((c_migrated_base_fee_mode c =? 3) || (c_migrated_base_fee_mode c =? 4)) with true by lia.
    rewrite numerator_of_bps by lia. cbn [bind]. exists mn. split; [exact MN|]. split; [|lia].
    right. destruct M as [M|M]; [left; split; [exact M|apply L1; exact M]|right; split; [exact M|apply L2; lia]].
Qed.

Lemma dynamic_params mn : 100000 <= mn <= 100000000 ->
  exists d, calculate_dynamic_fee_params mn = Ok d /\ dyn_validate d = Ok tt /\ df_initialized d = 1
  /\ (forall v, 0 <= v <= df_max_va d -> variable_part d v <= mn * 20 / 100)
  /\ mn * 20 / 100 - 2093 < variable_part d (df_max_va d).
Proof.
  intros H. unfold calculate_dynamic_fee_params, MAX_DYNAMIC_FEE_PERCENT.
  rewrite smul_intro by (unfold U128_MAX; lia). cbn [bind]. rewrite sdiv_intro by lia. cbn [bind].
  assert (X : 20000 <= mn * 20 / 100 <= 20000000).
  { split; [apply Z.div_le_lower_bound|apply Z.div_le_upper_bound]; lia. }
  set (mx := mn * 20 / 100) in *. clearbody mx.
  rewrite smul_intro by (unfold U128_MAX; lia). cbn [bind]. rewrite ssub_intro by lia. cbn [bind].
  unfold SQUARE_VFA_BIN. rewrite sdiv_intro by lia. cbn [bind].
  pose proof (Z.div_mod (mx * 100000000000 - 99999999999) 209091600000000 ltac:(lia)) as D.
  pose proof (Z.mod_pos_bound (mx * 100000000000 - 99999999999) 209091600000000 ltac:(lia)) as D1.
  set (q := (mx * 100000000000 - 99999999999) / 209091600000000) in *.
  set (rm := (mx * 100000000000 - 99999999999) mod 209091600000000) in *. clearbody q rm.
  assert (Q : 0 <= q <= 10000) by lia.
  rewrite scast_intro by (unfold U32_MAX; lia). cbn [bind].
  eexists. split; [reflexivity|].
  unfold dyn_validate, variable_part, BIN_STEP_BPS_DEFAULT, BIN_STEP_BPS_U128_DEFAULT, MAX_VOLATILITY_ACCUMULATOR,
    FILTER_PERIOD_DEFAULT, DECAY_PERIOD_DEFAULT, REDUCTION_FACTOR_DEFAULT, U24_MAX, MAX_BASIS_POINT.
  cbn [df_bin_step df_bin_step_u128 df_filter df_decay df_reduction df_vfc df_max_va df_initialized].
  split. { rewrite !require_true by (try reflexivity; lia). reflexivity. }
  split; [reflexivity|]. split.
  - intros v V. apply Z.div_le_upper_bound; [lia|].
    assert ((v * 1) ^ 2 <= 14460000 ^ 2) by (apply Z.pow_le_mono_l; lia).
    assert ((v * 1) ^ 2 * q <= 209091600000000 * q).
    { apply Z.mul_le_mono_nonneg_r; [lia|]. change (14460000 ^ 2) with 209091600000000 in *. lia. }
    lia.
  - change ((14460000 * 1) ^ 2) with 209091600000000.
    apply Z.lt_le_trans with (mx - 2092); [lia|]. apply Z.div_le_lower_bound; lia.
Qed.

(** ** The call that creates the pool *)
Definition collects (ours theirs : Z) : Prop :=
  (ours = 0 /\ theirs = 1)        (* quote token: "only token B" *)
  \/ (ours = 1 /\ theirs = 0)     (* output token: "both tokens" *)
  \/ (ours = 2 /\ theirs = 2).    (* compounding *)

(** The fees that a pool with its own terms opens with. *)
Record own_terms (c : config) (fees : v2_fees) (collect : Z) : Prop := {
  ot_base : says c (vf_base fees);
  ot_rate : 10 <= c_migrated_pool_fee_bps c <= 1000;
  ot_collect : collects (c_migrated_collect_mode c) collect;
  ot_comp : vf_compounding fees = c_compounding_fee_bps c
            /\ (collect = 2 -> 0 < vf_compounding fees <= 10000) /\ (collect <> 2 -> vf_compounding fees = 0);
  ot_dyn : (c_migrated_dynamic_fee c = 0 /\ vf_dynamic fees = None)
        \/ (c_migrated_dynamic_fee c = 1 /\ exists d f, vf_dynamic fees = Some d /\ lowest c f
             /\ dyn_validate d = Ok tt
             (* at most a fifth of the lowest fee is added, and nearly that at full volatility *)
             /\ (forall v, 0 <= v <= df_max_va d -> variable_part d v <= f * 20 / 100)
             /\ f * 20 / 100 - 2093 < variable_part d (df_max_va d))
}.

Lemma base_fee_built c : created c -> c_migration_option c = 1 -> c_migration_fee_option c = 6 ->
  exists data, build_base_fee c = Ok data /\ says c data.
Proof.
  intros C O F. pose proof (created_mig_fee c C O F) as K. unfold build_base_fee, says.
  pose proof (mo_bps _ K) as BB. rewrite numerator_of_bps by lia. cbn [bind]. cbv zeta.
  destruct (mo_typed _ K) as (T1 & T2 & T3 & T4).
  assert (P1 : 256 ^ Z.of_nat 1 = 256) by reflexivity. assert (P2 : 256 ^ Z.of_nat 2 = 65536) by reflexivity.
  assert (P4 : 256 ^ Z.of_nat 4 = 4294967296) by reflexivity.
  assert (P8 : 256 ^ Z.of_nat 8 = 18446744073709551616) by reflexivity.
  set (cl := c_migrated_pool_fee_bps c * 100000) in *. assert (CL : 0 <= cl <= 100000000 /\ cl * 10000 = c_migrated_pool_fee_bps c * 1000000000) by lia.
  clearbody cl. set (md := c_migrated_base_fee_mode c) in *.
  destruct (mo_mode _ K) as [(M & Z1 & Z2 & Z3 & Z4)|(M & _)]; fold md in M.
  - replace ((md =? 0) || (md =? 1)) with true by lia. cbn [bind].
    set (data := le 8 cl ++ le 2 0 ++ le 8 0 ++ le 8 0 ++ le 1 md).
    assert (LD : length data = 27%nat) by (unfold data; rewrite !app_length, !le_length; reflexivity).
    rewrite LD. exists data. split; [reflexivity|]. split; [exact LD|].
    split. { unfold data. repeat (apply Forall_app; split); apply le_bytes. }
    split. { replace (field data 0 8) with cl; [lia|]. symmetry. unfold data. change (le 8 cl ++ ?x) with ([] ++ le 8 cl ++ x). apply field_at; [reflexivity|lia]. }
    split. { unfold data. replace (le 1 md) with (le 1 md ++ []) by apply app_nil_r.
             rewrite (app_assoc (le 8 cl)), (app_assoc (le 8 cl ++ _)), (app_assoc ((le 8 cl ++ _) ++ _)).
             apply field_at; [rewrite !app_length, !le_length; reflexivity|lia]. }
    left. split; [exact M|].
    split. { unfold data. apply field_at; [apply le_length|lia]. }
    split. { unfold data. rewrite (app_assoc (le 8 cl)). apply field_at; [rewrite !app_length, !le_length; reflexivity|lia]. }
    unfold data. rewrite (app_assoc (le 8 cl)), (app_assoc (le 8 cl ++ _)).
    apply field_at; [rewrite !app_length, !le_length; reflexivity|lia].
  - replace ((md =? 0) || (md =? 1)) with false by lia. replace ((md =? 3) || (md =? 4)) with true by lia.
    unfold mc_stored. destruct (mc_round _ _ _ _ T1 T2 T3 T4) as (st & S1 & S2). rewrite S1. cbn [bind]. rewrite S2. cbn [bind].
    unfold u16ok, u32ok, u64ok, U16_MAX, U32_MAX, U64_MAX in *.
    set (n := c_mc_number_of_period c) in *. set (s := c_mc_price_step c) in *.
    set (e := c_mc_expiration c) in *. set (r := c_mc_reduction c) in *.
    set (data := le 8 cl ++ le 2 n ++ le 4 s ++ le 4 e ++ le 8 r ++ le 1 md).
    assert (LD : length data = 27%nat) by (unfold data; rewrite !app_length, !le_length; reflexivity).
    rewrite LD. exists data. split; [reflexivity|]. split; [exact LD|].
    split. { unfold data. repeat (apply Forall_app; split); apply le_bytes. }
    split. { replace (field data 0 8) with cl; [lia|]. symmetry. unfold data. change (le 8 cl ++ ?x) with ([] ++ le 8 cl ++ x). apply field_at; [reflexivity|lia]. }
    split. { unfold data. replace (le 1 md) with (le 1 md ++ []) by apply app_nil_r.
             rewrite (app_assoc (le 8 cl)), (app_assoc (le 8 cl ++ _)), (app_assoc ((le 8 cl ++ _) ++ _)), (app_assoc (((le 8 cl ++ _) ++ _) ++ _)).
             apply field_at; [rewrite !app_length, !le_length; reflexivity|lia]. }
    right. split; [exact M|].
    split. { unfold data. apply field_at; [apply le_length|lia]. }
    split. { unfold data. rewrite (app_assoc (le 8 cl)). apply field_at; [rewrite !app_length, !le_length; reflexivity|lia]. }
    split. { unfold data. rewrite (app_assoc (le 8 cl)), (app_assoc (le 8 cl ++ _)). apply field_at; [rewrite !app_length, !le_length; reflexivity|lia]. }
    unfold data. rewrite (app_assoc (le 8 cl)), (app_assoc (le 8 cl ++ _)), (app_assoc ((le 8 cl ++ _) ++ _)).
    apply field_at; [rewrite !app_length, !le_length; reflexivity|lia].
Qed.

Lemma terms_built c liq price : created c -> c_migration_option c = 1 -> c_migration_fee_option c = 6 ->
  exists fees collect, own_terms c fees collect
  /\ create_pool_call c liq price
     = Ok (CallCustom fees MIN_SQRT_PRICE MAX_SQRT_PRICE false liq price 1 collect None).
Proof.
  intros C O F. pose proof (created_mig_fee c C O F) as K. unfold create_pool_call. rewrite F. change (6 =? 6) with true. cbv iota.
  destruct (base_fee_built c C O F) as (data & D & S). unfold build_pool_fees. rewrite D. cbn [bind].
  destruct (min_fee_lowest c C O F) as (mn & MN & LO & RG).
  assert (DY : exists dy, migrated_dynamic_fee_params c = Ok dy
    /\ ((c_migrated_dynamic_fee c = 0 /\ dy = None)
        \/ (c_migrated_dynamic_fee c = 1 /\ exists d f, dy = Some d /\ lowest c f /\ dyn_validate d = Ok tt
             /\ (forall v, 0 <= v <= df_max_va d -> variable_part d v <= f * 20 / 100)
             /\ f * 20 / 100 - 2093 < variable_part d (df_max_va d)))).
  { unfold migrated_dynamic_fee_params. rewrite MN. cbn [bind]. destruct (mo_dyn _ K) as [E|E]; rewrite E.
    - exists None. auto.
    - change (1 =? 0) with false. change (1 =? 1) with true. cbv iota.
      destruct (dynamic_params mn RG) as (d & DP & DV & _ & U & L). rewrite DP.
      exists (Some d). split; [reflexivity|]. right. split; [reflexivity|]. exists d, mn. auto. }
  destruct DY as (dy & DY & DS). rewrite DY. cbn [bind].
  destruct (mo_comp _ K) as (C1 & C2).
  assert (X : exists collect, to_dammv2_collect_fee_mode (c_migrated_collect_mode c) = Ok collect
     /\ collects (c_migrated_collect_mode c) collect).
  { unfold to_dammv2_collect_fee_mode, collects. destruct (mo_collect _ K) as [E|[E|E]]; rewrite E.
    - exists 1. split; [reflexivity|lia].
    - exists 0. split; [reflexivity|lia].
    - exists 2. split; [reflexivity|lia]. }
  destruct X as (collect & X1 & X2). rewrite X1. cbn [bind].
  exists (mkV2Fees data dy (c_compounding_fee_bps c)), collect. split; [|reflexivity].
  constructor; cbn [vf_base vf_dynamic vf_compounding]; auto.
  - exact (mo_bps _ K).
  - unfold collects in X2. split; [reflexivity|]. split; intros; [apply C1|apply C2]; lia.
Qed.

(** With its own terms: the migration creates the pool with exactly the configured fees, over the
    whole price range, open at once, with the liquidity and price of the first position. *)
Theorem C64_own_terms : forall authority w g x now w', reachable w -> c_migration_fee_option (w_config w) = 6 ->
  exec w (OMigrateV2 (with_config_ok x (accepted (validate_v2_config authority g 6))) now) = Ok w' ->
  g_authority g = authority
  /\ exists fees collect first rest, w_positions w' = first :: rest
  /\ migrate_damm_v2 authority w g x now
     = Ok (w', CallCustom fees MIN_SQRT_PRICE MAX_SQRT_PRICE false (po_total first) (po_price first) 1 collect None)
  /\ own_terms (w_config w) fees collect.
Proof.
  intros au w g x now w' R F H. pose proof (iv_created _ (reachable_inv _ R)) as C.
  pose proof (exec_args _ _ _ H) as A. unfold exec in H. rewrite A in H. cbn [require bind] in H.
  pose proof (migrate_v2_positions _ _ _ _ H) as PP.
  destruct PP as (h & fb & fq & eb & eq & price & liq & dead & pa & cr & tp & tc & first & second & o1 & o2 & t1 & vp1
    & rest & _ & _ & O & _ & _ & _ & _ & _ & _ & _ & _ & PS & _).
  assert (V : validate_v2_config au g 6 = Ok tt).
  { destruct (validate_v2_config au g 6) as [[]|e] eqn:E; [reflexivity|]. discriminate H. }
  rewrite V in H. cbn [accepted] in H.
  split. { unfold validate_v2_config in V. change (6 =? 6) with true in V. cbn [bind] in V. apply require_ok in V. lia. }
  set (p1 := mkPosition _ _ _ _ _ _) in PS.
  destruct (terms_built _ (po_total p1) (po_price p1) C O F) as (fees & collect & T & CC).
  exists fees, collect, p1, rest. split; [exact PS|]. split; [|exact T].
  unfold migrate_damm_v2. rewrite F. rewrite require_true by reflexivity. cbn [bind]. rewrite V. cbn [bind].
  rewrite H. cbn [bind]. rewrite PS. rewrite CC. reflexivity.
Qed.

(** The fee a fixed option promises, in hundredths of a percent. *)
Definition promised (opt : Z) : Z :=
  nth (Z.to_nat opt) [25; 30; 100; 200; 400; 600] 0.

Lemma option_promised opt bps : 0 <= opt <= 5 -> migration_fee_option_validate opt bps = Ok tt -> bps = promised opt.
Proof.
  intros H V. unfold migration_fee_option_validate in V. unfold promised.
  assert (D : opt = 0 \/ opt = 1 \/ opt = 2 \/ opt = 3 \/ opt = 4 \/ opt = 5) by lia.
  destruct D as [->|[->|[->|[->|[->| ->]]]]]; 
    match goal with |- bps = ?p => let v := eval vm_compute in p in
      change p with v; change (require (bps =? v) EInvalidMigrationFeeOption = Ok tt) in V end;
    apply require_ok in V; lia.
Qed.

(** With a fixed option: the DAMM v2 config the caller brings has a constant fee, which rounded down to
    hundredths of a percent is the promised one; it is open to this program only, has no vault
    and covers the whole price range; the pool opens at once. *)
Theorem C64_fixed_terms_v2 : forall authority w g x now w', reachable w ->
  let opt := c_migration_fee_option (w_config w) in opt <> 6 -> 0 <= g_cliff g ->
  exec w (OMigrateV2 (with_config_ok x (accepted (validate_v2_config authority g opt))) now) = Ok w' ->
  promised opt * 100000 <= g_cliff g < (promised opt + 1) * 100000
  /\ g_periods g = 0 /\ g_reduction g = 0 /\ g_frequency g = 0 /\ (g_mode g = 0 \/ g_mode g = 1)
  /\ g_authority g = authority /\ g_vault_key g = 0 /\ g_activation_type g = 1
  /\ g_sqrt_min g = MIN_SQRT_PRICE /\ g_sqrt_max g = MAX_SQRT_PRICE
  /\ exists first rest, w_positions w' = first :: rest
  /\ migrate_damm_v2 authority w g x now = Ok (w', CallConfig (po_total first) (po_price first) None).
Proof.
  intros au w g x now w' R opt F G0 H. pose proof (iv_created _ (reachable_inv _ R)) as C.
  pose proof (created_fee_option _ C) as OR. fold opt in OR.
  pose proof (exec_args _ _ _ H) as A. unfold exec in H. rewrite A in H. cbn [require bind] in H.
  pose proof (migrate_v2_positions _ _ _ _ H) as PP.
  destruct PP as (h & fb & fq & eb & eq & price & liq & dead & pa & cr & tp & tc & first & second & o1 & o2 & t1 & vp1
    & rest & _ & _ & O & _ & _ & _ & _ & _ & _ & _ & _ & PS & _).
  assert (V : validate_v2_config au g opt = Ok tt).
  { destruct (validate_v2_config au g opt) as [[]|e] eqn:E; [reflexivity|]. discriminate H. }
  rewrite V in H. cbn [accepted] in H.
  set (p1 := mkPosition _ _ _ _ _ _) in PS.
  assert (MG : exists first rest, w_positions w' = first :: rest
    /\ migrate_damm_v2 au w g x now = Ok (w', CallConfig (po_total first) (po_price first) None)).
  { exists p1, rest. split; [exact PS|]. unfold migrate_damm_v2. fold opt. rewrite require_true by lia. cbn [bind].
    rewrite V. cbn [bind]. rewrite H. cbn [bind]. rewrite PS. unfold create_pool_call. fold opt.
    replace (opt =? 6) with false by lia. reflexivity. }
  clearbody p1. unfold validate_v2_config in V. replace (opt =? 6) with false in V by lia.
  apply bind_ok in V. destruct V as (u & V & AU). apply require_ok in AU.
  apply bind_ok in V. destruct V as (u0 & _ & V). apply bind_ok in V. destruct V as (u1 & V1 & V). apply require_ok in V1.
  apply bind_ok in V. destruct V as (bps & BP & V). apply bind_ok in V. destruct V as (u2 & V2 & V). apply require_ok in V2.
  apply bind_ok in V. destruct V as ([] & V3 & V). apply option_promised in V3; [|lia].
  apply bind_ok in V. destruct V as (u4 & V4 & V). apply require_ok in V4.
  apply bind_ok in V. destruct V as (u5 & V5 & V). apply require_ok in V5.
  apply bind_ok in V. destruct V as (u6 & V6 & V). apply require_ok in V6.
  apply bind_ok in V. destruct V as (a & V7 & V).
  assert (AT : g_activation_type g = 1).
  { unfold activation_of in V7. destruct (g_activation_type g =? 0) eqn:E0; [|destruct (g_activation_type g =? 1) eqn:E1; [lia|discriminate]].
    apply Ok_inj in V7. subst a. discriminate. }
  unfold to_bps, DAMM_V2_FEE_DENOMINATOR, MAX_BASIS_POINT in BP.
  apply bind_ok in BP. destruct BP as (y & Y & BP). apply smul_ok in Y. destruct Y as (-> & Y).
  apply bind_ok in BP. destruct BP as (z & Z & BP). apply sdiv_ok in Z. destruct Z as (-> & Z).
  apply scast_ok in BP. destruct BP as (-> & BP).
  pose proof (Z.div_mod (g_cliff g * 10000) 1000000000 ltac:(lia)).
  pose proof (Z.mod_pos_bound (g_cliff g * 10000) 1000000000 ltac:(lia)).
  repeat (split; [lia|]). exact MG.
Qed.

Theorem C64_fixed_terms_v1 : forall authority w k lp w', reachable w ->
  let opt := c_migration_fee_option (w_config w) in 0 <= k_fee_num k -> 0 < k_fee_den k ->
  exec w (OMigrateV1 (accepted (validate_v1_config authority k opt)) lp) = Ok w' ->
  migrate_damm_v1 authority w k lp = Ok w'
  /\ promised opt * k_fee_den k <= k_fee_num k * 10000 < (promised opt + 1) * k_fee_den k
  /\ k_partner_fee k = 0 /\ k_authority k = authority /\ k_activation_duration k = 0 /\ k_vault_key k = 0.
Proof.
  intros au w k lp w' R opt K0 K1 H. pose proof (iv_created _ (reachable_inv _ R)) as C.
  pose proof (exec_args _ _ _ H) as A. unfold exec in H. rewrite A in H. cbn [require bind] in H.
  assert (V : validate_v1_config au k opt = Ok tt).
  { destruct (validate_v1_config au k opt) as [[]|e] eqn:E; [reflexivity|]. discriminate H. }
  rewrite V in H. cbn [accepted] in H.
  split. { unfold migrate_damm_v1. fold opt. rewrite V. exact H. }
  assert (O : 0 <= opt <= 5).
  { pose proof (created_fee_option _ C) as OR. fold opt in OR.
    apply migrate_v1_eff in H. destruct H as (m & m' & fb & fq & eb & eq & b & mb & _ & _ & O & _).
    enough (opt <> 6) by lia. intros E. pose proof C as C'. apply created_inv in C'.
    destruct C' as (q & sup & spl & nw & mig & sb & ba & fl & pre & post & qm & fc & lr & qa & bps & T & _ & B).
    pose proof (cb_valid _ _ _ _ _ _ _ _ _ _ _ _ _ _ _ _ B) as W. apply validate_inv in W. destruct W as (_ & W).
    pose proof (va_v1 _ _ _ W) as W1. unfold opt in E.
    rewrite (cb_eq _ _ _ _ _ _ _ _ _ _ _ _ _ _ _ _ B) in O, E. unfold build in O, E.
    cbn [c_migration_option c_migration_fee_option] in O, E. destruct (W1 O) as (_ & _ & N & _). contradiction. }
  unfold validate_v1_config in V.
  apply bind_ok in V. destruct V as (u0 & _ & V). apply bind_ok in V. destruct V as (bps & BP & V).
  apply bind_ok in V. destruct V as ([] & V1 & V). apply option_promised in V1; [|lia].
  apply bind_ok in V. destruct V as (u2 & V2 & V). apply require_ok in V2.
  apply bind_ok in V. destruct V as (u3 & V3 & V). apply require_ok in V3.
  apply bind_ok in V. destruct V as (u4 & V4 & V). apply require_ok in V4. apply require_ok in V.
  unfold to_bps, MAX_BASIS_POINT in BP.
  apply bind_ok in BP. destruct BP as (y & Y & BP). apply smul_ok in Y. destruct Y as (-> & Y).
  apply bind_ok in BP. destruct BP as (z & Z & BP). apply sdiv_ok in Z. destruct Z as (-> & Z).
  apply scast_ok in BP. destruct BP as (-> & BP).
  pose proof (Z.div_mod (k_fee_num k * 10000) (k_fee_den k) ltac:(lia)).
  pose proof (Z.mod_pos_bound (k_fee_num k * 10000) (k_fee_den k) ltac:(lia)).
  split; [rewrite <- V1; lia|]. lia.
Qed.

(** The other direction: a DAMM config with the promised terms is accepted, so a migration is not refused
    for its config. *)
Lemma bps_promised num den opt : 0 <= num <= U64_MAX -> 0 < den -> 0 <= opt <= 5 ->
  promised opt * den <= num * 10000 < (promised opt + 1) * den -> to_bps num den = Ok (promised opt).
Proof.
  intros N D O P. assert (Q : 0 <= promised opt <= 600).
  { unfold promised. assert (E : opt = 0 \/ opt = 1 \/ opt = 2 \/ opt = 3 \/ opt = 4 \/ opt = 5) by lia.
    destruct E as [->|[->|[->|[->|[->| ->]]]]]; vm_compute; intuition discriminate. }
  unfold to_bps, MAX_BASIS_POINT. rewrite smul_intro by (unfold U128_MAX, U64_MAX in *; lia). cbn [bind].
  rewrite sdiv_intro by lia. cbn [bind].
  replace (num * 10000 / den) with (promised opt) by (apply (Z.div_unique_pos _ _ _ (num * 10000 - promised opt * den)); lia).
  apply scast_intro. unfold U64_MAX. lia.
Qed.
Lemma promised_option opt : 0 <= opt <= 5 -> migration_fee_option_validate opt (promised opt) = Ok tt.
Proof.
  intros O. assert (E : opt = 0 \/ opt = 1 \/ opt = 2 \/ opt = 3 \/ opt = 4 \/ opt = 5) by lia.
  destruct E as [->|[->|[->|[->|[->| ->]]]]]; reflexivity.
Qed.
Theorem C64_right_config_accepted_v2 : forall authority g opt, 0 <= opt <= 6 -> g_authority g = authority ->
  (opt = 6 \/
   0 <= g_cliff g <= U64_MAX /\ promised opt * 100000 <= g_cliff g < (promised opt + 1) * 100000
   /\ g_periods g = 0 /\ g_reduction g = 0 /\ g_frequency g = 0 /\ (g_mode g = 0 \/ g_mode g = 1)
   /\ g_vault_key g = 0 /\ g_activation_type g = 1 /\ g_sqrt_min g = MIN_SQRT_PRICE /\ g_sqrt_max g = MAX_SQRT_PRICE) ->
  validate_v2_config authority g opt = Ok tt.
Proof.
  intros au g opt O A H. unfold validate_v2_config. destruct (opt =? 6) eqn:E.
  - cbn [bind]. apply require_true. lia.
  - destruct H as [H|(N & P & Hp & Hr & Hf & Hm & Hv & Ha & Hl & Hh)]; [lia|].
    replace ((0 <=? g_mode g) && (g_mode g <=? 4)) with true by lia. cbn [bind].
    rewrite require_true by lia. cbn [bind].
    rewrite (bps_promised (g_cliff g) DAMM_V2_FEE_DENOMINATOR opt N) by (unfold DAMM_V2_FEE_DENOMINATOR; lia). cbn [bind].
    rewrite require_true by lia. cbn [bind]. rewrite promised_option by lia. cbn [bind].
    rewrite !require_true by lia. cbn [bind]. rewrite Ha. reflexivity.
Qed.
Theorem C64_right_config_accepted_v1 : forall authority k opt, 0 <= opt <= 5 ->
  0 <= k_fee_num k <= U64_MAX -> 0 < k_fee_den k ->
  promised opt * k_fee_den k <= k_fee_num k * 10000 < (promised opt + 1) * k_fee_den k ->
  k_partner_fee k = 0 -> k_authority k = authority -> k_activation_duration k = 0 -> k_vault_key k = 0 ->
  validate_v1_config authority k opt = Ok tt.
Proof.
  intros au k opt O N D P H1 H2 H3 H4. unfold validate_v1_config. rewrite require_true by lia. cbn [bind].
  rewrite (bps_promised _ _ opt N D) by lia. cbn [bind]. rewrite promised_option by lia. cbn [bind].
  rewrite !require_true by lia. reflexivity.
Qed.

(** The migration with a config account is the migration of [SystemModel], with the flag that says
    whether the account is accepted: building the call never stops it. *)
Theorem C64_same_migration : forall authority w g x now w', reachable w ->
  let x' := with_config_ok x (accepted (validate_v2_config authority g (c_migration_fee_option (w_config w)))) in
  args_ok (OMigrateV2 x' now) = true ->
  (exec w (OMigrateV2 x' now) = Ok w' <-> exists call, migrate_damm_v2 authority w g x now = Ok (w', call)).
Proof.
  intros au w g x now w' R x' A. split.
  - intros H. destruct (Z.eq_dec (c_migration_fee_option (w_config w)) 6) as [E|E].
    + unfold x' in H. rewrite E in H. destruct (C64_own_terms _ _ _ _ _ _ R E H) as (_ & f & cl & p & r & _ & M & _). eauto.
    + pose proof (iv_created _ (reachable_inv _ R)) as C. pose proof (created_fee_option _ C) as OR.
      pose proof (exec_args _ _ _ H) as A'. unfold exec in H. rewrite A' in H. cbn [require bind] in H.
      pose proof (migrate_v2_positions _ _ _ _ H) as PP.
      destruct PP as (h & fb & fq & eb & eq & price & liq & dead & pa & cr & tp & tc & first & second & o1 & o2 & t1 & vp1
        & rest & _ & _ & O & _ & _ & _ & _ & _ & _ & _ & _ & PS & _).
      unfold migrate_damm_v2. rewrite require_true by lia. cbn [bind]. unfold x' in H.
      destruct (validate_v2_config au g _) as [[]|e] eqn:V; [|discriminate H]. cbn [bind accepted] in *.
      rewrite H. cbn [bind]. rewrite PS. unfold create_pool_call.
      replace (c_migration_fee_option (w_config w) =? 6) with false by lia. cbn [bind]. eauto.
  - intros (call & H). unfold migrate_damm_v2 in H.
    apply bind_ok in H. destruct H as (u0 & _ & H). apply bind_ok in H. destruct H as ([] & V & H).
    apply bind_ok in H. destruct H as (w1 & M & H).
    assert (w1 = w').
    { destruct (w_positions w1); [discriminate|]. apply bind_ok in H. destruct H as (cc & _ & H). apply Ok_inj in H. congruence. }
    subst w1. unfold exec. rewrite A. cbn [require bind]. unfold x'. rewrite V. exact M.
Qed.

(** What is not checked of a DAMM v2 config: with a fixed option, configs that collect fees in either way and
    with any dynamic fee are all accepted. *)
Lemma fixed_other_terms_unchecked : forall authority g opt collect dyn,
  validate_v2_config authority g opt
  = validate_v2_config authority
      (mkV2Config (g_vault_key g) (g_authority g) (g_cliff g) (g_mode g) (g_periods g) (g_frequency g)
         (g_reduction g) (g_sqrt_min g) (g_sqrt_max g) (g_activation_type g) collect dyn) opt.
Proof. reflexivity. Qed.

(** ** Cases *)
Example C64_case_own :
  let x := mkExt false 15917911088005 49900000003 15917911088005 49900000003
       16440424709908767768472114401107 15917911086092 49899999997 true in
  let g := mkV2Config 5 7 0 2 1 1 1 0 0 0 1 None in
  reachable readyC /\ c_migration_fee_option (w_config readyC) = 6
  /\ is_ok (exec readyC (OMigrateV2 (with_config_ok x (accepted (validate_v2_config 7 g 6))) 1700010000)) = true
  /\ (do r <- migrate_damm_v2 7 readyC g x 1700010000 ;; Ok (snd r))
     = Ok (CallCustom (mkV2Fees [128; 150; 152; 0; 0; 0; 0; 0;  10; 0;  100; 0; 0; 0;  128; 81; 1; 0;
                                 32; 161; 7; 0; 0; 0; 0; 0;  3]
             (Some (mkDynFee 1 14460000 478 1 10 120 5000 1844674407370955)) 5000)
           4295048016 79226673521066979257578248091 false
           16440424709908767768472114401107 1032825514542420218 1 2 None)
  /\ accepted (validate_v2_config 8 g 6) = false.
Proof. split; [apply reachC|]. vm_compute. auto. Qed.

(* the lowest fee is 5000000, a fifth of which is 1000000 *)
Example C64_case_dynamic :
  lowest cfgC 5000000
  /\ variable_part (mkDynFee 1 14460000 478 1 10 120 5000 1844674407370955) 14460000 = 999458.
Proof. split; [right; left|]; vm_compute; auto. Qed.

(** A fee of 1% that falls by 5% of itself at each of 10 price steps. *)
Definition fx_paramsE : config_params :=
  {| q_base_fee := mkBaseFee 10000000 100 600 1000000000 2;
     q_dynamic_fee := None;
     q_collect_fee_mode := 0; q_migration_option := 1; q_activation_type := 1;
     q_token_type := 1; q_token_decimal := 6;
     q_partner_liq_pct := 50; q_partner_perm_pct := 0; q_creator_liq_pct := 0;
     q_creator_perm_pct := 50;
     q_threshold := 100000000000; q_start := Q64_ / 32;
     q_vesting := mkLockedVesting 0 0 0 0 0;
     q_migration_fee_option := 6; q_token_supply := None;
     q_creator_trading_fee_pct := 0; q_token_update_authority := 0;
     q_migration_fee_pct := 0; q_creator_migration_fee_pct := 0;
     q_migrated_collect_mode := 0; q_migrated_dynamic_fee := 1; q_migrated_pool_fee_bps := 100;
     q_pool_creation_fee := 0;
     q_partner_vesting := no_vest; q_creator_vesting := no_vest;
     q_migrated_base_fee_mode := 4; q_mc_number_of_period := 10; q_mc_price_step := 100;
     q_mc_expiration := 86400; q_mc_reduction := 500; q_first_swap_min_fee := false;
     q_compounding_fee_bps := 0; q_curve := fx_curve |}.
Definition cfgE : config := Eval vm_compute in get dummy_config (fx_config fx_paramsE).
Lemma typedE : params_typed fx_paramsE. Proof. typed. Qed.
Lemma createdE : created cfgE.
Proof. exists fx_paramsE, true, true, 1700000000, 11, 22, 33. split; [apply typedE|].
  split; [unfold u64ok; vm_compute; split; congruence|vm_compute; reflexivity]. Qed.

Example C64_case_falls :
  (created cfgC /\ c_migration_option cfgC = 1 /\ c_migration_fee_option cfgC = 6 /\ c_migrated_base_fee_mode cfgC = 3
   /\ map (mc_by_period 3 10000000 10 500000) [0; 1; 10; 11] = [Ok 10000000; Ok 9500000; Ok 5000000; Ok 5000000])
  /\ created cfgE /\ c_migration_option cfgE = 1 /\ c_migration_fee_option cfgE = 6 /\ c_migrated_base_fee_mode cfgE = 4
  /\ map (mc_by_period 4 10000000 10 500) [0; 1; 10; 11] = [Ok 10000000; Ok 9500000; Ok 5987369; Ok 5987369].
Proof. split; (split; [first [apply createdC | apply createdE]|]); vm_compute; auto. Qed.

(* 1% is promised; a config that charges 1.009999% is accepted, one that charges 1.01% is not *)
Example C64_case_fixed_v2 :
  let x := mkExt false 20056568052905 62874000000 20056568052905 62874000000
       20714935219466573231265082605509 8595672022674 26946000000 true in
  let g n := mkV2Config 0 7 n 0 0 0 0 4295048016 79226673521066979257578248091 1 2 None in
  reachable readyA /\ c_migration_fee_option (w_config readyA) = 2 /\ promised 2 = 100
  /\ is_ok (exec readyA (OMigrateV2 (with_config_ok x (accepted (validate_v2_config 7 (g 10099999) 2))) 1700001000)) = true
  /\ (do r <- migrate_damm_v2 7 readyA (g 10099999) x 1700001000 ;; Ok (snd r))
     = Ok (CallConfig 20714935219466573231265082605509 1032825514542432788 None)
  /\ map (fun n => accepted (validate_v2_config 7 (g n) 2)) [9999999; 10000000; 10100000] = [false; true; false].
Proof. split; [apply reachA|]. vm_compute. auto 10. Qed.

Example C64_case_fixed_v1 :
  let k n := mkV1Config n 100000 7 0 0 0 in
  reachable readyB /\ promised (c_migration_fee_option (w_config readyB)) = 25
  /\ is_ok (exec readyB (OMigrateV1 (accepted (validate_v1_config 7 (k 250) 0)) 123456789)) = true
  /\ map (fun n => accepted (validate_v1_config 7 (k n) 0)) [249; 250; 259; 260] = [false; true; true; false].
Proof. split; [apply reachB|]. vm_compute. auto. Qed.

Print Assumptions C64_fee_falls.
Print Assumptions C64_own_terms.
Print Assumptions C64_fixed_terms_v2.
Print Assumptions C64_fixed_terms_v1.
Print Assumptions C64_right_config_accepted_v2.
Print Assumptions C64_right_config_accepted_v1.
Print Assumptions C64_same_migration.
