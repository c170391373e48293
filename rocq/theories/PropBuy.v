(** * C53: an open pool can always be traded to completion, as long as its counters have room. *)
From Coq Require Import ZArith QArith List Bool Lia ZifyBool Lqa.
From Verif Require Import Base MathModel CurveModel FeeModel ConfigModel PoolModel TxModel
  SystemModel Fixtures Spec Lib CurveProofs CurveLoops Potential CalcProofs ConfigProofs FeeProofs
  SwapProofs InvProofs InvOps InvReach FixturesReach Effects Frame PropLife Bounds PropSafe PropSched PropLimiter PropRate LimInv PropPart PropVol Live PropSell.
Import ListNotations.
Open Scope Z_scope.
#[local] Arguments Z.pow : simpl never.
#[local] Arguments Z.testbit : simpl never.

Lemma todo_from_low stop curve : forall low,
  curve_wf low curve -> low <= stop -> stop <= top_price low curve ->
  todo stop curve low = quote_area_ceil low curve stop.
Proof.
  induction curve as [|[p l] rest IH]; intros low W L T; cbn [todo quote_area_ceil]; [reflexivity|].
  destruct W as (W1 & W2 & W3). rewrite ceil_div_cdiv by reflexivity. rewrite pow128.
  destruct (low <? Z.min stop p) eqn:E.
  - destruct (Z_le_gt_dec stop p).
    + rewrite Z.min_l by lia. rewrite covered_in by lia. rewrite todo_stop by lia.
      rewrite quote_ceil_below by (auto; lia). lia.
    + rewrite Z.min_r by lia. rewrite covered_above by lia. rewrite IH by (auto; lia). reflexivity.
  - assert (stop = low) by lia. subst stop. rewrite todo_stop by lia. rewrite covered_in by lia.
    rewrite quote_ceil_below by (auto; lia). replace (l * (low - low)) with 0 by lia. reflexivity.
Qed.

Lemma todo_le stop curve : forall low cur,
  curve_wf low curve -> low <= cur -> cur <= stop -> stop <= top_price low curve ->
  todo stop curve cur <= quote_area_ceil low curve stop - quote_area_ceil low curve cur + 1.
Proof.
  induction curve as [|[p l] rest IH]; intros low cur W L C T; cbn [todo quote_area_ceil]; [lia|].
  destruct W as (W1 & W2 & W3). rewrite !ceil_div_cdiv by reflexivity. rewrite !pow128.
  destruct (cur <? Z.min stop p) eqn:E.
  - assert (K : cdiv (l * (Z.min stop p - cur)) Q128
       <= cdiv (l * (Z.min stop p - low)) Q128 - cdiv (l * (cur - low)) Q128 + 1).
    { replace (l * (Z.min stop p - low)) with (l * (cur - low) + l * (Z.min stop p - cur)) by ring.
      pose proof (cdiv_add_ge (l * (cur - low)) (l * (Z.min stop p - cur)) Q128 Q128_pos).
      pose proof (cdiv_ub (l * (Z.min stop p - cur)) Q128 Q128_pos).
      assert (cdiv (l * (Z.min stop p - cur)) Q128 <= l * (Z.min stop p - cur) / Q128 + 1).
      { apply cdiv_le; [reflexivity|]. pose proof (Z.mod_pos_bound (l * (Z.min stop p - cur)) Q128 Q128_pos).
        pose proof (Z.div_mod (l * (Z.min stop p - cur)) Q128 ltac:(discriminate)). lia. }
      lia. }
    rewrite (covered_in low p cur) by lia. rewrite (quote_ceil_below p rest cur) by (auto; lia).
    destruct (Z_le_gt_dec stop p).
    + rewrite Z.min_l in * by lia. rewrite covered_in by lia. rewrite todo_stop by lia.
      rewrite quote_ceil_below by (auto; lia). lia.
    + rewrite Z.min_r in * by lia. rewrite covered_above by lia. rewrite todo_from_low by (auto; lia). lia.
  - destruct (Z.eq_dec cur stop) as [->|N]; [rewrite todo_stop by lia; lia|].
    rewrite !covered_above by lia. specialize (IH p cur W3 ltac:(lia) ltac:(lia) T). lia.
Qed.

Lemma calc_buy_exists c price amount :
  cfg_ok c -> c_start c <= price <= c_mig_price c -> 0 <= amount <= U64_MAX ->
  exists r, calc_buy_from_in c price amount (c_mig_price c) = Ok r
    /\ fi_out r <= U64_MAX
    /\ (c_threshold c - quote_area_ceil (c_start c) (curve_points c) price + 1 <= amount ->
        fi_price r = c_mig_price c).
Proof.
  intros K P A. pose proof (ok_curve _ K) as CO. set (cv := curve_points c) in *.
  pose proof CO as [S [n PAD] NE W M1 M2 MX LQ].
  assert (BB : (inject_Z 0 + base_area (c_start c) cv (c_mig_price c) - base_area (c_start c) cv price <= inject_Z U64_MAX)%Q).
  { pose proof (ok_swap_area _ K) as SA. fold cv in SA. pose proof (base_area_nonneg (c_start c) cv price S W) as N.
    pose proof (ok_swap _ K) as SW. assert (SU : (inject_Z (c_swap_base_amount c) <= inject_Z U64_MAX)%Q) by (rewrite <- Zle_Qle; lia).
    change (inject_Z 0) with 0%Q. clear - SA N SU. revert SA N SU. generalize (inject_Z U64_MAX). intros. lra. }
  destruct (buy_in_loop_exists (c_mig_price c) cv (c_start c) price amount 0 S W LQ (proj1 P) (proj2 P) M2
              (Z.le_trans _ _ _ M2 MX) A ltac:(lia) BB) as (r & E & E1 & E2).
  exists r. unfold calc_buy_from_in. rewrite PAD, buy_in_pad. split; [exact E|].
  assert (E' : calc_buy_from_in c price amount (c_mig_price c) = Ok r)
    by (unfold calc_buy_from_in; rewrite PAD, buy_in_pad; exact E).
  split.
  - pose proof (calc_buy_in_moves c cv price amount r CO P (proj1 A) E') as (MV & RP & _).
    apply moves_base in MV; auto. rewrite inject_Z_opp in MV.
    pose proof (base_area_mono (c_start c) cv (fi_price r) (c_mig_price c) S W ltac:(lia)) as BM.
    rewrite Zle_Qle. clear - MV BM BB. change (inject_Z 0) with 0%Q in BB. revert MV BM BB.
    generalize (inject_Z U64_MAX). intros. lra.
  - intros T. apply E2. pose proof (todo_le (c_mig_price c) cv (c_start c) price W (proj1 P) (proj2 P) M2) as TL.
    pose proof (ok_area _ K) as OA. fold cv in OA. lia.
Qed.

Lemma excluded_same c p cur x y d el :
  ~ limiter_active c (p_activation p) cur d ->
  num_excluded c p cur x d el = num_included c p cur y d el.
Proof.
  intros L. unfold num_excluded, num_included. destruct el; [reflexivity|].
  unfold total_num_excluded, total_num_included, base_num_excluded, base_num_included.
  destruct ((bf_mode _ =? 0) || (bf_mode _ =? 1)); [reflexivity|].
  destruct (bf_mode (pf_base (c_fees c)) =? 2) eqn:M; [|reflexivity].
  unfold limiter_active in L. unfold rl_applied, rl_is_zero.
  set (b := pf_base (c_fees c)) in *.
  destruct ((bf_third b =? 0) && (bf_second b =? 0) && (bf_first b =? 0)) eqn:Z; [reflexivity|].
  destruct d; [reflexivity|].
  destruct (sadd U128_MAX (p_activation p) (bf_second b)) as [v|] eqn:SA; [|reflexivity].
  apply sadd_ok in SA. destruct SA as (-> & _). cbn [bind].
  destruct (p_activation p + bf_second b <? cur) eqn:LT; [reflexivity|].
  exfalso. apply L. repeat split; auto; lia.
Qed.

Lemma rate_limit_inactive c p key cur d v : 0 <= p_activation p <= U64_MAX -> created c ->
  ~ limiter_active c (p_activation p) cur d -> rate_limit_check c p key cur d v = Ok tt.
Proof.
  intros PA C L. unfold rate_limit_check. destruct (bf_mode (pf_base (c_fees c)) =? 2) eqn:M; [|reflexivity].
  unfold limiter_active in L. unfold rl_applied, rl_is_zero.
  set (b := pf_base (c_fees c)) in *.
  destruct ((bf_third b =? 0) && (bf_second b =? 0) && (bf_first b =? 0)) eqn:Z; [reflexivity|].
  destruct d; [reflexivity|].
  pose proof (fk_base _ (created_fees_ok _ C)) as (_ & _ & T & _). fold b in T. unfold u64ok in T.
  rewrite sadd_intro by (unfold U64_MAX, U128_MAX in *; lia). cbn [bind].
  destruct (p_activation p + bf_second b <? cur) eqn:LT; [reflexivity|].
  exfalso. apply L. repeat split; auto; lia.
Qed.

Lemma included_exists num amount net fee actual :
  0 <= num <= MAX_FEE_NUMERATOR -> 0 <= amount <= U64_MAX ->
  fee = cdiv (amount * num) FEE_DENOMINATOR -> net = amount - fee ->
  0 <= actual <= net ->
  exists incl fee', get_included_fee_amount num actual = Ok (incl, fee') /\ incl <= amount /\ 0 <= fee' <= U64_MAX.
Proof.
  intros N A F E AC. unfold get_included_fee_amount, MAX_FEE_NUMERATOR, FEE_DENOMINATOR in *.
  rewrite ssub_intro by lia. cbn [bind].
  pose proof (cdiv_ub (amount * num) 1000000000 ltac:(lia)) as U. rewrite <- F in U.
  assert (I1 : actual * 1000000000 <= amount * (1000000000 - num)) by nia.
  assert (I2 : cdiv (actual * 1000000000) (1000000000 - num) <= amount) by (apply cdiv_le; lia).
  assert (I3 : actual <= cdiv (actual * 1000000000) (1000000000 - num)).
  { destruct (Z.eq_dec actual 0) as [->|NZ]; [apply cdiv_nonneg; lia|].
    assert (actual - 1 < cdiv (actual * 1000000000) (1000000000 - num)); [|lia]. apply cdiv_gt; nia. }
  rewrite mul_div_cast_up_intro; unfold U64_MAX, U128_MAX in *; try lia.
  cbn [bind]. rewrite ssub_intro by lia. cbn [bind]. do 2 eexists. split; [reflexivity|]. lia.
Qed.

Lemma split_fees_exists fee ref : 0 <= fee <= U64_MAX -> exists s, split_fees fee ref = Ok s.
Proof.
  intros F. unfold split_fees, PROTOCOL_FEE_PERCENT, HOST_FEE_PERCENT.
  assert (P1 : 0 <= fee * 20 / 100 <= fee).
  { split; [apply Z.div_pos; lia|]. apply Z.div_le_upper_bound; lia. }
  rewrite mul_div_cast_down_intro; unfold U64_MAX, U128_MAX in *; try lia. cbn [bind].
  rewrite ssub_intro by lia. cbn [bind].
  assert (P2 : 0 <= fee * 20 / 100 * 20 / 100 <= fee * 20 / 100).
  { split; [apply Z.div_pos; lia|]. apply Z.div_le_upper_bound; lia. }
  destruct ref.
  - rewrite mul_div_cast_down_intro; unfold U64_MAX, U128_MAX in *; try lia. cbn [bind].
    rewrite ssub_intro by lia. cbn [bind]. eauto.
  - cbn [bind]. rewrite ssub_intro by lia. cbn [bind]. eauto.
Qed.

(** A partial-fill (mode 1) purchase without a minimum. *)
Definition purchase (a : swap_args) : Prop :=
  sa_dir a = QuoteToBase /\ sa_mode a = 1 /\ sa_amount1 a = 0.

(** Room for one more purchase of [amount] in the 64-bit quote vault and the cumulative fee
    metrics. *)
Definition purchase_room (w : world) (amount : Z) : Prop :=
  w_qvault w + amount <= U64_MAX
  /\ (if c_collect_fee_mode (w_config w) =? 0
      then p_m_protocol_quote (w_pool w) + amount <= U64_MAX
           /\ p_m_trading_quote (w_pool w) + amount <= U64_MAX
      else p_m_protocol_base (w_pool w) + p_base (w_pool w) <= U64_MAX
           /\ p_m_trading_base (w_pool w) + p_base (w_pool w) <= U64_MAX).

(** The transaction around a swap: the instructions sysvar is passed, the swap is the top-level
    instruction, and no earlier top-level instruction concerns the pool (an earlier instruction
    of this program may, if it is not itself a swap on this pool). *)
Definition alone (v : view) (pool : Z) : Prop :=
  v_sysvar v = true /\ ix_program (v_current v) = SELF
  /\ forall i, In i (v_before v) ->
       (ix_program i <> SELF -> ~ In pool (ix_accounts i))
       /\ (ix_program i = SELF -> ix_kindof i = KSwap ->
           exists q, nth_error (ix_accounts i) 2 = Some q /\ q <> pool).

Lemma alone_ok v pool : alone v pool -> validate_single_swap v pool = Ok tt.
Proof.
  intros (S & C & B). unfold validate_single_swap. rewrite S, C. cbn [require bind].
  change (SELF =? SELF) with true. cbn [negb bind].
  induction (v_before v) as [|i l IH]; [reflexivity|]. cbn [check_before].
  destruct (B i (or_introl eq_refl)) as (B1 & B2).
  assert (E : (if negb (ix_program i =? SELF)
     then require (negb (existsb (fun a => a =? pool) (ix_accounts i))) EFailToValidateSingleSwapInstruction
     else do b <- include_pool_swap i pool ;; require (negb b) EFailToValidateSingleSwapInstruction) = Ok tt).
  { destruct (ix_program i =? SELF) eqn:P; cbn [negb].
    - unfold include_pool_swap. destruct (ix_kindof i) eqn:K; try reflexivity.
      destruct (B2 ltac:(lia) eq_refl) as (q & Q & N). cbn [is_swap_kind]. rewrite Q. cbn [bind].
      apply require_true. lia.
    - apply require_true. destruct (existsb (fun a => a =? pool) (ix_accounts i)) eqn:X; [|reflexivity].
      apply existsb_exists in X. destruct X as (q & Q & N). exfalso. apply B1; [lia|].
      replace pool with q by lia. exact Q. }
  rewrite E. cbn [bind]. apply IH. intros j J. apply B. right. exact J.
Qed.

Lemma rate_limit_ok c p key cur d v : 0 <= p_activation p <= U64_MAX -> created c ->
  (limiter_active c (p_activation p) cur d -> alone v key) -> rate_limit_check c p key cur d v = Ok tt.
Proof.
  intros PA C L. destruct (limiter_dec c (p_activation p) cur d) as [LA|NL]; [|apply rate_limit_inactive; auto].
  specialize (L LA). pose proof (limiter_active_limited _ _ _ _ C LA) as LB. destruct LA as (M & NZ & -> & CU).
  unfold rate_limit_check. cbv zeta. rewrite M. change (2 =? 2) with true. cbv iota.
  unfold rl_applied. destruct (rl_is_zero _); [reflexivity|].
  pose proof (fk_base _ (created_fees_ok _ C)) as (_ & _ & T & _). unfold u64ok in T.
  rewrite sadd_intro by (unfold U64_MAX, U128_MAX in *; lia). cbn [bind].
  destruct (negb _); [apply alone_ok; exact L|reflexivity].
Qed.

(** The most a purchase offering [amount] can take: a little more than [amount] while the rate
    limiter is in force (C04). *)
Definition most_paid (w : world) (a : swap_args) (m : Z) : Prop :=
  let active := limiter_active (w_config w) (p_activation (w_pool w))
                  (point_of (w_config w) (sa_slot a) (sa_now a)) (sa_dir a) in
  (active -> m = sa_amount0 a + sa_amount0 a / 90000 + 31000) /\ (~ active -> m = sa_amount0 a).

Theorem C53_purchase_succeeds : forall w a m,
  reachable w -> p_quote (w_pool w) < c_threshold (w_config w) ->
  purchase a -> clock_ok w a -> 0 < sa_amount0 a -> most_paid w a m -> purchase_room w m ->
  (* while the rate limiter is in force: the pool's only swap in its transaction *)
  (limiter_active (w_config w) (p_activation (w_pool w))
      (point_of (w_config w) (sa_slot a) (sa_now a)) (sa_dir a) -> alone (sa_view a) (w_key w)) ->
  exists w', exec w (OSwap a) = Ok w'
    (* whatever the fee, a hundred times the threshold is enough to complete the curve *)
    /\ (100 * (c_threshold (w_config w) + 1) <= sa_amount0 a ->
        c_threshold (w_config w) <= p_quote (w_pool w') /\ p_progress (w_pool w') <> 0
        /\ p_price (w_pool w') = c_mig_price (w_config w)).
Proof.
  intros w a m R OP (D & MO & A1) (CL1 & CL2 & CL3) A0 (MP1 & MP2) (RQ & RM) AL. rewrite D in MP1, MP2, AL.
  assert (Q1 : 0 <= sa_amount0 a / 90000) by (apply Z.div_pos; lia).
  assert (AM : sa_amount0 a <= m).
  { destruct (limiter_dec (w_config w) (p_activation (w_pool w))
       (point_of (w_config w) (sa_slot a) (sa_now a)) QuoteToBase) as [LA|NL];
    [rewrite MP1 by exact LA|rewrite MP2 by exact NL]; lia. }
  pose proof (reachable_inv _ R) as I. pose proof (iv_created _ I) as C.
  pose proof (created_cfg_ok _ C) as K. pose proof (created_fees_ok _ C) as FK.
  pose proof (reachable_bounded _ R) as BD. pose proof (bd_quote _ BD) as B1.
  assert (P0 : p_progress (w_pool w) = 0) by (apply (iv_complete _ I); lia).
  pose proof (iv_nonneg _ I) as (N1 & N2 & N3 & N4 & N5 & N6 & N7 & N8 & N9 & N10).
  pose proof (iv_quote _ I) as IQ. unfold quote_owed in IQ. rewrite P0 in IQ. simpl in IQ.
  assert (AU : sa_amount0 a <= U64_MAX) by lia.
  destruct (C33_dynamic_fee_bounded w (sa_now a) R) as (vt & _ & PT & _).
  set (el := first_swap_eligible (w_config w) (w_pool w) (w_key w) (is_some (sa_referral a)) (sa_view a)).
  set (cur := point_of (w_config w) (sa_slot a) (sa_now a)) in *.
  destruct (num_included_exists w (sa_now a) vt cur (sa_amount0 a) QuoteToBase el R PT CL3
              (reachable_activation _ R) ltac:(lia)) as (num & NE & NB).
  destruct (fee_mode_exists (w_config w) QuoteToBase (is_some (sa_referral a)) K) as (fm & FM).
  pose proof (fee_mode_cases _ _ _ _ FM) as (FR & FB & _).
  assert (OI : fm_on_input fm = (c_collect_fee_mode (w_config w) =? 0)).
  { unfold get_fee_mode, collect_of in FM. destruct (ok_collect _ K) as [E|E]; rewrite E in *; simpl in FM;
      apply Ok_inj in FM; subst fm; reflexivity. }
  pose proof (quote_ceil_nonneg (c_start (w_config w)) (curve_points (w_config w)) (p_price (w_pool w))
               (co_wf _ _ (ok_curve _ K))) as QN.
  (* the computation *)
  assert (PS : exists r, process_swap (w_config w) (set_tracker (w_pool w) vt) (sa_mode a) (sa_amount0 a)
     (sa_amount1 a) fm (sa_dir a) cur el = Ok r
     /\ sr_included r <= m
     /\ (100 * (c_threshold (w_config w) + 1) <= sa_amount0 a -> sr_price r = c_mig_price (w_config w))).
  { unfold process_swap. rewrite D, A1, MO. change (1 =? 0) with false. change (1 =? 1) with true. cbv iota.
    unfold swap_partial. rewrite NE. cbn [bind].
    destruct (fm_on_input fm) eqn:FI.
    - destruct (fee_on_amount_exists num (sa_amount0 a) (fm_referral fm) NB ltac:(lia)) as (f & FE).
      rewrite FE. cbn [bind].
      pose proof (fee_on_amount_ok _ _ _ _ FE) as (fee & F1 & F2 & F3 & _).
      pose proof (fee_le_gross (sa_amount0 a) num ltac:(lia) NB) as FLG. rewrite <- F1 in FLG.
      destruct (calc_buy_exists (w_config w) (p_price (w_pool w)) (foa_amount f) K (iv_price _ I) ltac:(lia))
        as (fi & CE & CO & CF).
      unfold fi_of_direction. change (p_price (set_tracker (w_pool w) vt)) with (p_price (w_pool w)).
      rewrite CE. cbn [bind].
      assert (FN : 0 <= foa_amount f) by lia.
      destruct (calc_buy_in_moves _ _ _ _ _ (ok_curve _ K) (iv_price _ I) FN CE) as (_ & _ & FL & FO).
      assert (BIG : 100 * (c_threshold (w_config w) + 1) <= sa_amount0 a -> fi_price fi = c_mig_price (w_config w)).
      { intros G. apply CF.
        assert (fee <= sa_amount0 a - sa_amount0 a / 100).
        { rewrite F1. apply cdiv_le; [reflexivity|]. unfold MAX_FEE_NUMERATOR, FEE_DENOMINATOR in *.
          pose proof (Z.mul_div_le (sa_amount0 a) 100 ltac:(lia)). nia. }
        pose proof (ok_threshold _ K) as OT.
        assert (c_threshold (w_config w) + 1 <= sa_amount0 a / 100) by (apply Z.div_le_lower_bound; lia). lia. }
      destruct (fi_left fi =? 0) eqn:L0; cbn [negb].
      + cbn [bind]. rewrite require_true by (simpl; lia). cbn [bind]. eexists. split; [reflexivity|]. simpl. split; [lia|auto].
      + rewrite ssub_intro by lia. cbn [bind].
        assert (IX : exists num' incl fee', num_excluded (w_config w) (set_tracker (w_pool w) vt) cur
                       (foa_amount f - fi_left fi) QuoteToBase el = Ok num'
                     /\ get_included_fee_amount num' (foa_amount f - fi_left fi) = Ok (incl, fee')
                     /\ incl <= m /\ 0 <= fee' <= U64_MAX).
        { destruct (limiter_dec (w_config w) (p_activation (w_pool w)) cur QuoteToBase) as [LA|LA].
          - rewrite (MP1 LA). eapply limiter_inverse_exists; [exact C|exact LA|lia| |exact NE|].
            + rewrite <- (MP1 LA). lia.
            + rewrite <- F1. lia.
          - exists num. rewrite (excluded_same _ _ _ _ (sa_amount0 a)) by exact LA.
            destruct (included_exists num (sa_amount0 a) (foa_amount f) fee (foa_amount f - fi_left fi) NB ltac:(lia) F1 F3 ltac:(lia))
              as (incl & fee' & IE & IE1 & IE2).
            exists incl, fee'. split; [exact NE|]. split; [exact IE|]. lia. }
        destruct IX as (num' & incl & fee' & NX & IE & IE1 & IE2).
        rewrite NX. cbn [bind]. rewrite IE. cbn [bind]. destruct (split_fees_exists fee' (fm_referral fm) IE2) as ([[tr pr] rf] & SE).
        rewrite SE. cbn [bind]. rewrite require_true by (simpl; lia). cbn [bind].
        eexists. split; [reflexivity|]. simpl. auto.
    - cbn [bind foa_amount].
      destruct (calc_buy_exists (w_config w) (p_price (w_pool w)) (sa_amount0 a) K (iv_price _ I) ltac:(lia))
        as (fi & CE & CO & CF).
      unfold fi_of_direction. change (p_price (set_tracker (w_pool w) vt)) with (p_price (w_pool w)).
      rewrite CE. cbn [bind].
      destruct (calc_buy_in_moves _ _ _ _ _ (ok_curve _ K) (iv_price _ I) (Z.lt_le_incl _ _ A0) CE) as (_ & _ & FL & FO).
      destruct (fee_on_amount_exists num (fi_out fi) (fm_referral fm) NB ltac:(lia)) as (g & GE).
      pose proof (fee_on_amount_ok _ _ _ _ GE) as (fee & F1 & F2 & F3 & _).
      pose proof (fee_le_gross (fi_out fi) num ltac:(lia) NB) as FLG. rewrite <- F1 in FLG.
      assert (BIG : 100 * (c_threshold (w_config w) + 1) <= sa_amount0 a -> fi_price fi = c_mig_price (w_config w)).
      { intros G. apply CF. pose proof (ok_threshold _ K) as OT. lia. }
      destruct (fi_left fi =? 0) eqn:L0; cbn [negb].
      + cbn [bind]. rewrite GE. cbn [bind]. rewrite require_true by (simpl; lia). cbn [bind].
        eexists. split; [reflexivity|]. simpl. split; [lia|auto].
      + rewrite ssub_intro by lia. cbn [bind]. rewrite GE. cbn [bind]. rewrite require_true by (simpl; lia). cbn [bind].
        eexists. split; [reflexivity|]. simpl. split; [lia|auto]. }
  destruct PS as (r & PS & SI & SP).
  pose proof PS as PS'. apply process_swap_facts in PS'; auto; [|exact (iv_price _ I)|lia].
  destruct PS' as (num' & fee & gross & SF & _). rewrite D in SF. change (p_price (set_tracker (w_pool w) vt)) with (p_price (w_pool w)) in SF.
  pose proof (gross_in_reserve _ _ _ _ _ _ _ I SF) as GR. cbv iota in GR.
  pose proof (sf_parts _ _ _ _ _ _ _ _ SF) as PARTS.
  apply parts_sum in PARTS; [|apply (sf_fee_nonneg _ _ _ _ _ _ _ _ SF)]. destruct PARTS as (PS1 & PS2 & PS3 & PS4 & _).
  pose proof (sf_fee_le _ _ _ _ _ _ _ _ SF) as FL.
  destruct (swap_finishes w a cur fm vt r) as (w' & E); auto; try lia.
  - cbn [args_ok]. rewrite !u64b_intro by lia. reflexivity.
  - apply current_point_of; auto.
  - rewrite D. apply rate_limit_ok; auto. apply reachable_activation; auto.
  - rewrite D. exact FM.
  - rewrite FB, OI. rewrite OI in FL. destruct (c_collect_fee_mode (w_config w) =? 0); cbn [negb]; lia.
  - rewrite D. lia.
  - exists w'. split; [exact E|]. intros BIG.
    assert (R' : reachable w') by (eapply reachable_exec; eauto).
    assert (PR : p_price (w_pool w') = c_mig_price (w_config w) /\ w_config w' = w_config w).
    { unfold exec in E. apply bind_ok in E. destruct E as (u & _ & E).
      unfold do_swap in E. apply bind_ok in E. destruct E as ([w2 r2] & E & E2). apply Ok_inj in E2. simpl in E2. subst w2.
      apply swap_full_effect in E; auto; [|apply (iv_price _ I)|lia].
      destruct E as (fm' & n' & fee' & gr' & pf & cf & cu & p1 & SE & PRE & PSX).
      assert (p1 = set_tracker (w_pool w) vt).
      { unfold update_pre_swap in PRE. unfold pre_tracker in PT. cbv zeta in PT.
        destruct (dyn_enabled _); [rewrite PT in PRE; apply Ok_inj in PRE; auto|].
        apply Ok_inj in PRE. subst p1 vt. destruct (w_pool w); reflexivity. }
      subst p1. pose proof (se_fm _ _ _ _ _ _ _ _ _ _ _ SE) as FM'. rewrite D, FM in FM'. apply Ok_inj in FM'. subst fm'.
      pose proof (se_point _ _ _ _ _ _ _ _ _ _ _ SE) as CU. rewrite current_point_of in CU by auto. apply Ok_inj in CU. subst cu.
      fold el cur in PSX. rewrite PS in PSX. apply Ok_inj in PSX. subst r2.
      destruct (se_pool _ _ _ _ _ _ _ _ _ _ _ SE) as (p2 & AP & _ & _ & CASE).
      pose proof (ap_price _ _ _ _ _ _ _ _ _ AP) as PB. rewrite SP in PB by exact BIG.
      split; [destruct CASE as [(_ & ->)|(_ & _ & ->)]; exact PB|].
      rewrite (se_same _ _ _ _ _ _ _ _ _ _ _ SE). reflexivity. }
    destruct PR as (PR & CW). destruct (C14_end_of_curve_completes w' R') as (C14 & _).
    rewrite CW in C14. specialize (C14 PR). split; [exact C14|]. split; [|exact PR].
    intros PZ. apply (iv_complete _ (reachable_inv _ R')) in PZ. rewrite CW in PZ. lia.
Qed.

(** Pool A half-way through its life: a purchase of any size is accepted, and one of a hundred
    times the threshold completes the curve. *)
Example C53_purchase_case :
  let w := run wA histA1 in
  let a := mkSwapArgs 500 None QuoteToBase 1 (100 * (c_threshold cfgA + 1)) 0 1000 1700000300 plain_view in
  reachable w /\ p_quote (w_pool w) < c_threshold (w_config w)
  /\ purchase a /\ clock_ok w a /\ 0 < sa_amount0 a /\ purchase_room w (sa_amount0 a)
  /\ ~ limiter_active (w_config w) (p_activation (w_pool w))
      (point_of (w_config w) (sa_slot a) (sa_now a)) (sa_dir a).
Proof.
  cbv zeta. split; [apply reachA|]. unfold purchase, clock_ok, purchase_room, limiter_active.
  vm_compute. repeat split; try discriminate; auto. intros (A & _). discriminate A.
Qed.

(** Pool D with its rate limiter in force. *)
Example C53_purchase_case_limited :
  let w := wD in
  let a := mkSwapArgs 500 None QuoteToBase 1 (100 * (c_threshold cfgD + 1)) 0 1020 1700000010 plain_view in
  let m := sa_amount0 a + sa_amount0 a / 90000 + 31000 in
  reachable w /\ p_quote (w_pool w) < c_threshold (w_config w)
  /\ purchase a /\ clock_ok w a /\ 0 < sa_amount0 a /\ purchase_room w m
  /\ limiter_active (w_config w) (p_activation (w_pool w))
      (point_of (w_config w) (sa_slot a) (sa_now a)) (sa_dir a)
  /\ alone (sa_view a) (w_key w).
Proof.
  cbv zeta. split; [apply (reachD [])|]. unfold purchase, clock_ok, purchase_room, limiter_active, alone.
  split; [vm_compute; reflexivity|]. split; [repeat split|]. split; [vm_compute; repeat split; discriminate|].
  split; [vm_compute; reflexivity|]. split; [vm_compute; repeat split; discriminate|].
  split; [vm_compute; repeat split; try discriminate; intros (A & _); discriminate A|].
  split; [reflexivity|]. split; [reflexivity|]. intros i [].
Qed.

Print Assumptions C53_purchase_succeeds.
