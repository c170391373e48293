(** * Volatility tracking: C33, C34. *)
From Coq Require Import ZArith QArith List Bool Lia ZifyBool Lqa.
From Verif Require Import Base MathModel CurveModel FeeModel ConfigModel PoolModel TxModel
  SystemModel Spec Lib CurveProofs CurveLoops Potential CalcProofs ConfigProofs FeeProofs
  SwapProofs InvProofs InvOps InvReach PropSwap Effects Frame PropFees Fixtures FixturesReach.
Import ListNotations.
Open Scope Z_scope.
#[local] Arguments Z.pow : simpl never.
#[local] Arguments Z.testbit : simpl never.

(** ** Specification: the number of half-bins between two (square root) prices: twice the whole
    number of basis points by which the larger exceeds the smaller. *)
Definition bins_moved (a b : Z) : Z :=
  2 * ((Z.max a b * 2 ^ 64 / Z.min a b - 2 ^ 64) / 1844674407370955).

Definition dynamic_on (c : config) : Prop := df_initialized (pf_dyn (c_fees c)) = 1.

Lemma created_dyn c : created c -> let df := pf_dyn (c_fees c) in
  (df_initialized df = 0 /\ df_max_va df = 0 /\ df_vfc df = 0 /\ df_bin_step df = 0)
  \/ (dynamic_on c /\ df_bin_step df = 1 /\ df_bin_step_u128 df = 1844674407370955
      /\ 0 <= df_filter df < df_decay df /\ df_decay df <= 65535 /\ 0 <= df_reduction df <= 10000
      /\ 0 <= df_vfc df <= 16777215 /\ 0 <= df_max_va df <= 16777215).
Proof.
  intros H df. apply created_inv in H.
  destruct H as (q & sup & spl & now & mig & sb & ba & fl & pre & post & qm & fc & lr & qa & bps
                 & T & _ & B).
  pose proof (cb_valid _ _ _ _ _ _ _ _ _ _ _ _ _ _ _ _ B) as V.
  apply validate_inv in V. destruct V as (_ & V). pose proof (va_dyn _ _ _ V) as D.
  pose proof (pt_dyn _ T) as TD.
  assert (E : c_fees c = to_pool_fees_config q) by (rewrite (cb_eq _ _ _ _ _ _ _ _ _ _ _ _ _ _ _ _ B); reflexivity).
  unfold dynamic_on, df. rewrite E. unfold to_pool_fees_config. clear - D TD.
  destruct (q_dynamic_fee q) as [d|]; simpl; [right|left; auto].
  unfold dyn_validate in D.
  apply bind_ok in D. destruct D as (u1 & D1 & D). apply require_ok in D1.
  apply bind_ok in D. destruct D as (u2 & D2 & D). apply require_ok in D2.
  apply bind_ok in D. destruct D as (u3 & D3 & D). apply require_ok in D3.
  apply bind_ok in D. destruct D as (u4 & D4 & D). apply require_ok in D4.
  apply bind_ok in D. destruct D as (u5 & D5 & D). apply require_ok in D5. apply require_ok in D.
  unfold dyn_typed, u8ok, u16ok, u32ok, U16_MAX, U32_MAX in TD.
  unfold BIN_STEP_BPS_DEFAULT, BIN_STEP_BPS_U128_DEFAULT, U24_MAX, MAX_BASIS_POINT in *. lia.
Qed.

(** ** Computing one update *)
Lemma delta_value a b : 0 < a -> 0 < b -> forall m,
  delta_bin_id 1844674407370955 a b = Ok m -> m = bins_moved a b.
Proof.
  intros A B m H. unfold delta_bin_id in H.
  assert (E : (if b <? a then (a, b) else (b, a)) = (Z.max a b, Z.min a b)).
  { destruct (b <? a) eqn:C; f_equal; lia. }
  rewrite E in H. apply bind_ok in H. destruct H as (r & R & H). unfold safe_shl_div_cast in R.
  apply bind_ok in R. destruct R as (q & Q & R). apply ok_or_ok in Q. apply scast_ok in R. destruct R as (-> & _).
  unfold shl_div in Q. destruct (Z.min a b =? 0); [discriminate|].
  destruct (U256_MAX <? Z.max a b * 2 ^ 64); [discriminate|]. cbv zeta in Q.
  destruct (_ <=? U128_MAX); [|discriminate]. apply Some_inj in Q. cbn [divr] in Q. subst q.
  apply bind_ok in H. destruct H as (d & D & H). apply ssub_ok in D. destruct D as (-> & _).
  apply bind_ok in H. destruct H as (x & X & H). apply sdiv_ok in X. destruct X as (-> & _).
  apply smul_ok in H. destruct H as (-> & _). unfold bins_moved. change ONE_Q64 with (2 ^ 64). ring.
Qed.

Lemma delta_ok a b : MIN_SQRT_PRICE <= a <= MAX_SQRT_PRICE -> MIN_SQRT_PRICE <= b <= MAX_SQRT_PRICE ->
  delta_bin_id 1844674407370955 a b = Ok (bins_moved a b) /\ 0 <= bins_moved a b <= 2 ^ 80.
Proof.
  intros A B. unfold delta_bin_id.
  assert (E : (if b <? a then (a, b) else (b, a)) = (Z.max a b, Z.min a b)).
  { destruct (b <? a) eqn:C; f_equal; lia. }
  rewrite E. unfold bins_moved. assert (HI : Z.max a b <= MAX_SQRT_PRICE) by lia.
  assert (LO : MIN_SQRT_PRICE <= Z.min a b) by lia. assert (LE : Z.min a b <= Z.max a b) by lia.
  set (up := Z.max a b) in *. set (low := Z.min a b) in *. clearbody up low. clear A B E.
  unfold MIN_SQRT_PRICE, MAX_SQRT_PRICE in *.
  assert (U : up * 2 ^ 64 / low <= U128_MAX).
  { apply Z.div_le_upper_bound; [lia|].
    transitivity (4295048016 * U128_MAX); [unfold U128_MAX; lia|].
    apply Z.mul_le_mono_nonneg_r; [unfold U128_MAX; lia|lia]. }
  assert (L : 2 ^ 64 <= up * 2 ^ 64 / low).
  { apply Z.div_le_lower_bound; [lia|]. apply Z.mul_le_mono_nonneg_r; lia. }
  unfold safe_shl_div_cast, shl_div. replace (low =? 0) with false by lia.
  replace (U256_MAX <? up * 2 ^ 64) with false by (unfold U256_MAX; lia). cbv zeta. cbn [divr].
  set (q := up * 2 ^ 64 / low) in *. clearbody q.
  replace (q <=? U128_MAX) with true by lia. cbn [ok_or bind]. rewrite scast_intro by exact U. cbn [bind].
  change ONE_Q64 with (2 ^ 64). rewrite ssub_intro by exact L. cbn [bind].
  rewrite sdiv_intro by lia. cbn [bind].
  assert (D0 : 0 <= (q - 2 ^ 64) / 1844674407370955) by (apply Z.div_pos; lia).
  assert (D1 : (q - 2 ^ 64) / 1844674407370955 <= 2 ^ 79).
  { apply Z.div_le_upper_bound; [lia|]. unfold U128_MAX in U. lia. }
  set (d := (q - 2 ^ 64) / 1844674407370955) in *. clearbody d.
  split; [|lia]. rewrite smul_intro by (unfold U128_MAX; lia). f_equal. ring.
Qed.

(** ** The invariant *)
Definition vt_inv (c : config) (vt : tracker) : Prop :=
  let df := pf_dyn (c_fees c) in
  0 <= vt_va vt <= df_max_va df /\ 0 <= vt_vref vt <= df_max_va df
  /\ ((vt_price_ref vt = 0 /\ vt_last vt = 0) \/ c_start c <= vt_price_ref vt <= c_mig_price c).

Lemma pre_inv c p now vt : created c -> c_start c <= p_price p <= c_mig_price c ->
  vt_inv c (p_tracker p) -> pre_tracker c p now vt -> vt_inv c vt.
Proof.
  intros C P (I1 & I2 & I3) H. unfold pre_tracker in H. cbv zeta in H. pose proof (created_dyn c C) as D.
  cbv zeta in D. unfold dyn_enabled in H. destruct (negb (df_initialized (pf_dyn (c_fees c)) =? 0)) eqn:E.
  2:{ subst vt. repeat split; auto; lia. }
  destruct D as [D|(_ & D)]; [lia|].
  unfold update_references in H. cbv zeta in H. destruct (df_filter _ <=? _).
  - destruct (_ <? df_decay _).
    + apply bind_ok in H. destruct H as (m & M & H). apply smul_ok in M. destruct M as (-> & _).
      apply bind_ok in H. destruct H as (v & V & H). apply sdiv_ok in V. destruct V as (-> & _).
      apply Ok_inj in H. subst vt. unfold vt_inv. simpl. split; [lia|]. split; [|right; lia].
      set (va := vt_va (p_tracker p)) in *. set (rd := df_reduction (pf_dyn (c_fees c))) in *.
      unfold MAX_BASIS_POINT. split; [apply Z.div_pos; [apply Z.mul_nonneg_nonneg|]; lia|].
      transitivity va; [|lia]. apply Z.div_le_upper_bound; [lia|]. rewrite (Z.mul_comm 10000).
      apply Z.mul_le_mono_nonneg_l; lia.
    + apply Ok_inj in H. subst vt. unfold vt_inv. simpl. split; [lia|]. split; [lia|right; lia].
  - apply Ok_inj in H. subst vt. repeat split; auto; lia.
Qed.

Lemma post_inv c vt old new now vt' : created c -> c_start c <= new <= c_mig_price c -> 0 < c_start c ->
  vt_inv c vt -> post_tracker c vt old new now vt' -> vt_inv c vt'.
Proof.
  intros C P S (I1 & I2 & I3) H. unfold post_tracker in H. cbv zeta in H. pose proof (created_dyn c C) as D.
  cbv zeta in D. unfold dyn_enabled in H. destruct (negb (df_initialized (pf_dyn (c_fees c)) =? 0)) eqn:E.
  2:{ subst vt'. repeat split; auto; lia. }
  destruct D as [D|(_ & D)]; [lia|].
  destruct H as (u & mv & U & _ & ->). unfold update_volatility_accumulator in U.
  apply bind_ok in U. destruct U as (dp & DP & U).
  apply bind_ok in U. destruct U as (m & M & U). apply smul_ok in M. destruct M as (-> & _).
  apply bind_ok in U. destruct U as (va & V & U). apply sadd_ok in V. destruct V as (-> & _).
  apply Ok_inj in U. subst u. unfold vt_inv. simpl.
  assert (D0 : 0 <= dp).
  { unfold delta_bin_id in DP. destruct (if _ <? _ then _ else _) as [up low].
    apply bind_ok in DP. destruct DP as (r & R & DP). apply bind_ok in DP. destruct DP as (x & X & DP).
    apply ssub_ok in X. apply bind_ok in DP. destruct DP as (y & Y & DP). apply sdiv_ok in Y. destruct Y as (-> & _).
    apply smul_ok in DP. destruct DP as (-> & _).
    replace (df_bin_step_u128 (pf_dyn (c_fees c))) with 1844674407370955 by lia.
    assert (0 <= x / 1844674407370955) by (apply Z.div_pos; lia). lia. }
  assert (PR : vt_price_ref vt <> 0).
  { intros Z0. unfold delta_bin_id in DP. rewrite Z0 in DP. replace (0 <? new) with true in DP by lia.
    apply bind_ok in DP. destruct DP as (r & R & _). unfold safe_shl_div_cast, shl_div in R. discriminate R. }
  unfold MAX_BASIS_POINT. split; [lia|]. split; [lia|]. right. lia.
Qed.

Lemma reachable_vt w : reachable w -> vt_inv (w_config w) (p_tracker (w_pool w)).
Proof.
  intros (w0 & ops & I0 & ->).
  assert (B : vt_inv (w_config w0) (p_tracker (w_pool w0))).
  { pose proof (created_dyn (w_config w0) (iv_created _ (initial_inv _ I0))) as D. cbv zeta in D.
    destruct I0 as (c & key & cr & pa & tt & sl & ti & ad & os & C & _ & _ & H).
    unfold initialize_pool in H. minv. unfold vt_inv in *. simpl in *. repeat split; try lia; auto. }
  assert (R0 : reachable w0) by (exists w0, []; auto). clear I0.
  revert w0 B R0. induction ops as [|o ops IH]; intros w0 B R0; [exact B|].
  change (run w0 (o :: ops)) with (run (step w0 o) ops).
  apply IH; [|apply (reachable_run w0 [o]); auto].
  destruct (exec w0 o) as [w'|e] eqn:E; [rewrite (step_ok _ _ _ E)|rewrite (step_err _ _ _ E); auto].
  pose proof (reachable_inv _ R0) as I.
  destruct (exec_frame _ _ _ I E) as (FR & SM). rewrite (fr_config _ _ FR).
  destruct o; try (rewrite (sk_tracker _ _ SM); exact B).
  destruct (swap_observed_num _ _ _ R0 E) as (paid & got & fee & tr & pr & rf & num
   & _ & _ & _ & _ & _ & _ & _ & _ & _ & _ & _ & _ & _ & _ & _ & vt & PT & QT & _).
  pose proof (iv_created _ I) as CR. pose proof (created_cfg_ok _ CR) as K.
  pose proof (reachable_exec _ _ _ R0 E) as R1. pose proof (iv_price _ (reachable_inv _ R1)) as P1.
  rewrite (fr_config _ _ FR) in P1.
  eapply post_inv; [exact CR| |exact (co_start _ _ (ok_curve _ K))| |exact QT]; auto.
  eapply pre_inv; [exact CR| | |exact PT]; auto. apply (iv_price _ I).
Qed.

(** ** C33 *)
Theorem C33_accumulator_bounded : forall w, reachable w ->
  let vt := p_tracker (w_pool w) in let df := pf_dyn (c_fees (w_config w)) in
  0 <= vt_va vt <= df_max_va df /\ 0 <= vt_vref vt <= df_max_va df.
Proof. intros w R. destruct (reachable_vt w R) as (A & B & _). auto. Qed.

Theorem C33_dynamic_fee_bounded : forall w now, reachable w ->
  let c := w_config w in let df := pf_dyn (c_fees c) in
  exists vt v, pre_tracker c (w_pool w) now vt /\ variable_fee_numerator df vt = Ok v
    /\ 0 <= v <= ceil_div ((df_max_va df * df_bin_step df) ^ 2 * df_vfc df) 100000000000
    (* and the whole rate is defined whenever the base rate is, and at most 99% *)
    /\ (forall base, 0 <= base <= 1000000000 ->
          total_fee_numerator df base vt = Ok (Z.min 990000000 (base + v))).
Proof.
  intros w now R c df. pose proof (reachable_inv _ R) as I. pose proof (iv_created _ I) as CR.
  pose proof (reachable_vt w R) as VI. fold c in CR, VI.
  pose proof (created_dyn c CR) as D. cbv zeta in D. fold df in D.
  assert (PT : exists vt, pre_tracker c (w_pool w) now vt).
  { unfold pre_tracker. fold df. cbv zeta. unfold dyn_enabled.
    destruct (negb (df_initialized df =? 0)) eqn:E; [|eexists; reflexivity].
    destruct D as [D|(_ & D)]; [lia|]. unfold update_references. cbv zeta.
    destruct (df_filter df <=? _); [|eexists; reflexivity]. destruct (_ <? df_decay df); [|eexists; reflexivity].
    destruct VI as (V1 & _). fold df in V1.
    assert (vt_va (p_tracker (w_pool w)) * df_reduction df <= 16777215 * 10000) by (apply Z.mul_le_mono_nonneg; lia).
    rewrite smul_intro by (unfold U128_MAX; lia). cbn [bind]. rewrite sdiv_intro by discriminate. cbn [bind].
    eexists; reflexivity. }
  destruct PT as (vt & PT). exists vt.
  pose proof (pre_inv c (w_pool w) now vt CR (iv_price _ I) VI PT) as (V1 & _). fold df in V1.
  assert (X : exists v, variable_fee_numerator df vt = Ok v
     /\ 0 <= v <= ceil_div ((df_max_va df * df_bin_step df) ^ 2 * df_vfc df) 100000000000
     /\ v <= 2 ^ 80).
  { unfold variable_fee_numerator, dyn_enabled. rewrite ceil_div_cdiv by reflexivity.
    destruct (negb (df_initialized df =? 0)) eqn:E; simpl negb; cbv iota.
    2:{ exists 0. split; [reflexivity|]. destruct D as [(D1 & D2 & D3 & D4)|(D1 & D)].
        - rewrite D2, D3. split; [|lia]. change (0 <= 0 <= 0). lia.
        - unfold dynamic_on in D1. fold df in D1. lia. }
    destruct D as [D|(_ & D)]; [lia|].
    replace (df_bin_step df) with 1 by lia. rewrite !Z.mul_1_r.
    set (va := vt_va vt) in *. set (mx := df_max_va df) in *. set (vf := df_vfc df) in *.
    assert (S0 : 0 <= va * va <= mx * mx) by (split; [apply Z.mul_nonneg_nonneg|apply Z.mul_le_mono_nonneg]; lia).
    assert (S1 : mx * mx <= 16777215 * 16777215) by (apply Z.mul_le_mono_nonneg; lia).
    assert (S2 : 0 <= va * va * vf <= mx * mx * vf) by (split; [apply Z.mul_nonneg_nonneg|apply Z.mul_le_mono_nonneg_r]; lia).
    assert (S3 : mx * mx * vf <= 16777215 * 16777215 * 16777215) by (apply Z.mul_le_mono_nonneg; lia).
    rewrite (smul_intro _ va 1) by (unfold U128_MAX; lia). cbn [bind]. rewrite Z.mul_1_r.
    rewrite smul_intro by (unfold U128_MAX; lia). cbn [bind]. rewrite smul_intro by (unfold U128_MAX; lia).
    cbn [bind]. rewrite sadd_intro by (unfold U128_MAX; lia). cbn [bind]. rewrite sdiv_intro by lia.
    eexists. split; [reflexivity|]. rewrite Z.pow_2_r.
    replace (va * va * vf + 99999999999) with (va * va * vf + 100000000000 - 1) by ring.
    change ((va * va * vf + 100000000000 - 1) / 100000000000) with (cdiv (va * va * vf) 100000000000).
    split; [split; [apply cdiv_nonneg; lia|apply cdiv_mono; lia]|].
    apply cdiv_le; lia. }
  destruct X as (v & X1 & X2 & X3). exists v. split; [exact PT|]. split; [exact X1|]. split; [exact X2|].
  intros base Hb. unfold total_fee_numerator. rewrite X1. cbn [bind].
  rewrite sadd_intro by (unfold U128_MAX; lia). cbn [bind]. unfold MAX_FEE_NUMERATOR.
  destruct (990000000 <? v + base) eqn:E; f_equal; lia.
Qed.

(** No move inside the curve's price range makes the volatility update fail. The clock is the
    unix time in seconds; all that is used is that it is at least 65535. *)
Theorem C33_update_never_fails : forall w now price,
  reachable w -> 65535 <= now ->
  c_start (w_config w) <= price <= c_mig_price (w_config w) ->
  exists vt vt', pre_tracker (w_config w) (w_pool w) now vt
    /\ post_tracker (w_config w) vt (p_price (w_pool w)) price now vt'
    /\ (forall p, p_tracker p = vt -> p_price p = price ->
          exists p', update_post_swap (w_config w) p (p_price (w_pool w)) now = Ok p').
Proof.
  intros w now price R N P. destruct (C33_dynamic_fee_bounded w now R) as (vt & _ & PT & _).
  exists vt. pose proof (reachable_inv _ R) as I. pose proof (iv_created _ I) as CR.
  pose proof (reachable_vt w R) as VI. set (c := w_config w) in *. set (df := pf_dyn (c_fees c)).
  pose proof (created_cfg_ok _ CR) as K. pose proof (ok_start_min _ K) as LO. pose proof (ok_mig_max _ K) as HI.
  pose proof (iv_price _ I) as PW. fold c in PW.
  pose proof (pre_inv c (w_pool w) now vt CR PW VI PT) as VI'.
  pose proof (created_dyn c CR) as D. cbv zeta in D. fold df in D.
  unfold post_tracker, update_post_swap. cbv zeta. fold df. unfold dyn_enabled.
  destruct (negb (df_initialized df =? 0)) eqn:E.
  2:{ exists vt. split; [exact PT|]. split; [reflexivity|]. intros p _ _. eexists; reflexivity. }
  destruct D as [D|(_ & D)]; [lia|].
  assert (PR : c_start c <= vt_price_ref vt <= c_mig_price c).
  { destruct VI' as (_ & _ & [(Z0 & Z1)|PR]); [exfalso|exact PR].
    unfold pre_tracker in PT. cbv zeta in PT. fold df in PT. unfold dyn_enabled in PT. rewrite E in PT.
    unfold update_references in PT. cbv zeta in PT.
    unfold MIN_SQRT_PRICE in LO.
    destruct (df_filter df <=? Z.max 0 (now - vt_last (p_tracker (w_pool w)))) eqn:F.
    - destruct (_ <? df_decay df).
      + apply bind_ok in PT. destruct PT as (x & _ & PT). apply bind_ok in PT. destruct PT as (y & _ & PT).
        apply Ok_inj in PT. subst vt. simpl in Z0. lia.
      + apply Ok_inj in PT. subst vt. simpl in Z0. lia.
    - apply Ok_inj in PT. subst vt. lia. }
  destruct (delta_ok price (vt_price_ref vt)) as (DE & DB); [lia|lia|].
  destruct (delta_ok (p_price (w_pool w)) price) as (DE2 & DB2); [lia|lia|].
  replace (df_bin_step_u128 df) with 1844674407370955 by lia.
  destruct VI' as (V1 & V2 & _). fold df in V1, V2.
  assert (U : exists u, update_volatility_accumulator df vt price = Ok u).
  { unfold update_volatility_accumulator. replace (df_bin_step_u128 df) with 1844674407370955 by lia.
    rewrite DE. cbn [bind]. unfold MAX_BASIS_POINT. rewrite smul_intro by (unfold U128_MAX; lia). cbn [bind].
    rewrite sadd_intro by (unfold U128_MAX; lia). cbn [bind]. eexists; reflexivity. }
  destruct U as (u & U). eexists. split; [exact PT|]. split.
  - exists u, (bins_moved (p_price (w_pool w)) price). split; [exact U|]. split; [exact DE2|]. reflexivity.
  - intros p -> ->. rewrite U. cbn [bind]. rewrite DE2. cbn [bind].
    destruct (0 <? bins_moved (p_price (w_pool w)) price); eexists; reflexivity.
Qed.

(** ** C34 *)
Theorem C34_volatility_rules : forall w a w',
  reachable w -> exec w (OSwap a) = Ok w' -> dynamic_on (w_config w) ->
  let df := pf_dyn (c_fees (w_config w)) in
  let vt := p_tracker (w_pool w) in let vt' := p_tracker (w_pool w') in
  let elapsed := Z.max 0 (sa_now a - vt_last vt) in
  (elapsed < df_filter df -> vt_price_ref vt' = vt_price_ref vt /\ vt_vref vt' = vt_vref vt)
  /\ (df_filter df <= elapsed -> vt_price_ref vt' = p_price (w_pool w)
      /\ vt_vref vt' = if elapsed <? df_decay df then vt_va vt * df_reduction df / 10000 else 0)
  /\ vt_va vt' = Z.min (df_max_va df)
                   (vt_vref vt' + 10000 * bins_moved (p_price (w_pool w')) (vt_price_ref vt'))
  /\ vt_last vt' = if 0 <? bins_moved (p_price (w_pool w)) (p_price (w_pool w')) then sa_now a
                   else vt_last vt.
Proof.
  intros w a w' R H ON df vt vt' el.
  destruct (swap_observed_num _ _ _ R H) as (paid & got & fee & tr & pr & rf & num
   & _ & _ & _ & _ & _ & _ & _ & _ & _ & _ & _ & _ & _ & _ & _ & t1 & PT & QT & _).
  pose proof (reachable_inv _ R) as I. pose proof (iv_created _ I) as CR.
  pose proof (created_cfg_ok _ CR) as K.
  pose proof (reachable_exec _ _ _ R H) as R1. pose proof (iv_price _ (reachable_inv _ R1)) as P1.
  destruct (exec_frame _ _ _ I H) as (FR & _). rewrite (fr_config _ _ FR) in P1.
  pose proof (co_start _ _ (ok_curve _ K)) as S0. pose proof (iv_price _ I) as P0.
  pose proof (post_inv _ _ _ _ _ _ CR P1 S0 (pre_inv _ _ _ _ CR P0 (reachable_vt w R) PT) QT) as (_ & _ & VR).
  pose proof (created_dyn _ CR) as D. cbv zeta in D. fold df in D.
  unfold dynamic_on in ON. fold df in ON. destruct D as [D|(_ & D)]; [lia|].
  unfold pre_tracker, post_tracker in PT, QT. cbv zeta in PT, QT. fold df in PT, QT.
  assert (EN : dyn_enabled df = true) by (unfold dyn_enabled; lia). rewrite EN in PT, QT.
  destruct QT as (u & mv & U & MV & TE). fold vt' in TE, VR.
  replace (df_bin_step_u128 df) with 1844674407370955 in MV by lia.
  apply delta_value in MV; [|lia|lia].
  unfold update_volatility_accumulator in U. replace (df_bin_step_u128 df) with 1844674407370955 in U by lia.
  apply bind_ok in U. destruct U as (dp & DP & U).
  apply bind_ok in U. destruct U as (m & M & U). apply smul_ok in M. destruct M as (-> & _).
  apply bind_ok in U. destruct U as (va & V & U). apply sadd_ok in V. destruct V as (-> & _).
  apply Ok_inj in U. subst u. cbn [vt_last vt_price_ref vt_va vt_vref] in TE.
  assert (PR : 0 < vt_price_ref t1).
  { assert (vt_price_ref t1 <> 0).
    { intros Z0. unfold delta_bin_id in DP. rewrite Z0 in DP. replace (0 <? p_price (w_pool w')) with true in DP by lia.
      apply bind_ok in DP. destruct DP as (r & X & _). unfold safe_shl_div_cast, shl_div in X. discriminate X. }
    rewrite TE in VR. cbn [vt_last vt_price_ref] in VR. lia. }
  apply delta_value in DP; [|lia|lia]. subst dp mv.
  unfold update_references in PT. cbv zeta in PT. fold vt in PT. fold el in PT.
  rewrite TE. cbn [vt_last vt_price_ref vt_va vt_vref]. unfold MAX_BASIS_POINT.
  assert (G : vt_last t1 = vt_last vt
     /\ (el < df_filter df -> vt_price_ref t1 = vt_price_ref vt /\ vt_vref t1 = vt_vref vt)
     /\ (df_filter df <= el -> vt_price_ref t1 = p_price (w_pool w)
      /\ vt_vref t1 = if el <? df_decay df then vt_va vt * df_reduction df / 10000 else 0)).
  { destruct (df_filter df <=? el) eqn:F1.
    - destruct (el <? df_decay df) eqn:F2.
      + apply bind_ok in PT. destruct PT as (x & X & PT). apply smul_ok in X. destruct X as (-> & _).
        apply bind_ok in PT. destruct PT as (y & Y & PT). apply sdiv_ok in Y. destruct Y as (-> & _).
        apply Ok_inj in PT. subst t1. simpl. repeat split; auto; lia.
      + apply Ok_inj in PT. subst t1. simpl. repeat split; auto; lia.
    - apply Ok_inj in PT. subst t1. repeat split; auto; lia. }
  destruct G as (G1 & G2 & G3). split; [exact G2|]. split; [exact G3|].
  split; [rewrite Z.min_comm; f_equal; ring|]. rewrite G1. reflexivity.
Qed.

(** A pool with the dynamic fee on, after three swaps: the next swap is inside the decay window,
    the tracker is non-trivial, and the swap goes through. *)
Example C33_case : reachable (run wA (firstn 3 histA1)) /\ dynamic_on (w_config (run wA (firstn 3 histA1)))
  /\ p_tracker (w_pool (run wA (firstn 3 histA1)))
     = mkTracker 1700000050 782328101219648101 8870000 7230000.
Proof. split; [apply reachA|]. vm_compute. split; reflexivity. Qed.

Example C34_case :
  let w := run wA (firstn 3 histA1) in
  let o := swp 502 None QuoteToBase 0 1000000000 1 1700000120 plain_view in
  reachable w /\ dynamic_on (w_config w) /\ is_ok (exec w o) = true
  /\ df_filter (pf_dyn (c_fees (w_config w))) <= 1700000120 - vt_last (p_tracker (w_pool w))
     < df_decay (pf_dyn (c_fees (w_config w)))
  /\ 0 < bins_moved (p_price (w_pool w)) (p_price (w_pool (step w o))).
Proof.
  cbv zeta. split; [apply reachA|]. split; [vm_compute; reflexivity|]. split; [vm_compute; reflexivity|].
  split; vm_compute; [split; congruence|reflexivity].
Qed.

Print Assumptions C33_accumulator_bounded.
Print Assumptions C33_dynamic_fee_bounded.
Print Assumptions C33_update_never_fails.
Print Assumptions C34_volatility_rules.
