(** * Partial fills while the rate limiter is in force: the rest of C04. *)
From Coq Require Import ZArith QArith List Bool Lia ZifyBool.
From Verif Require Import Base MathModel CurveModel FeeModel ConfigModel PoolModel TxModel
  SystemModel Spec Lib CurveProofs CurveLoops Potential CalcProofs ConfigProofs FeeProofs
  SwapProofs InvProofs InvOps InvReach PropSwap PropMath PropSched PropLimiter PropRate LimInv
  Fixtures FixturesReach.
Import ListNotations.
Open Scope Z_scope.
#[local] Arguments Z.pow : simpl never.
#[local] Arguments Z.testbit : simpl never.

Lemma limiter_active_limited c act cur d : created c -> limiter_active c act cur d ->
  limited (pf_base (c_fees c)).
Proof.
  intros C (M & NZ & _). destruct (limiter_cases c C M) as (_ & [Z|L]); [contradiction|exact L].
Qed.

Lemma limiter_nums c p cur a ex d el num0 num : created c ->
  limiter_active c (p_activation p) cur d -> el = false -> 0 <= a -> 0 <= ex ->
  num_included c p cur a d el = Ok num0 -> num_excluded c p cur ex d el = Ok num ->
  exists b0 b1 v, rl_num_included (pf_base (c_fees c)) a = Ok b0
    /\ rl_num_excluded (pf_base (c_fees c)) ex = Ok b1 /\ 0 <= v
    /\ (df_initialized (pf_dyn (c_fees c)) = 0 -> v = 0)
    /\ num0 = Z.min 990000000 (b0 + v) /\ num = Z.min 990000000 (b1 + v).
Proof.
  intros C LA -> A X H0 H1. pose proof (limiter_active_limited _ _ _ _ C LA) as L.
  destruct LA as (M & NZ & -> & CU). unfold num_included, num_excluded in *.
  unfold total_num_included, total_num_excluded in *.
  apply bind_ok in H0. destruct H0 as (b0 & B0 & H0). apply bind_ok in H1. destruct H1 as (b1 & B1 & H1).
  unfold base_num_included in B0. unfold base_num_excluded in B1. rewrite M in B0, B1.
  change ((2 =? 0) || (2 =? 1)) with false in B0, B1. change (2 =? 2) with true in B0, B1. cbv iota in B0, B1.
  apply bind_ok in B0. destruct B0 as (ap & AP & B0). apply bind_ok in B1. destruct B1 as (ap' & AP' & B1).
  rewrite AP in AP'. apply Ok_inj in AP'. subst ap'. apply rl_applied_inv in AP; [|exact L].
  assert (T : ap = true) by lia. rewrite T in B0, B1. clear AP T.
  pose proof (created_fees_ok c C) as F.
  destruct (rl_num_ge _ _ _ L A B0) as (_ & G0).
  pose proof (rl_excluded_num_ge _ _ _ L B1) as G1. pose proof L as (LC & _).
  apply total_num_bounds in H0; [|apply F|lia]. apply total_num_bounds in H1; [|apply F|lia].
  destruct H0 as (v & V & -> & V0 & _). destruct H1 as (v' & V' & -> & _ & _).
  rewrite V in V'. apply Ok_inj in V'. subst v'.
  exists b0, b1, v. split; [exact B0|]. split; [exact B1|]. split; [exact V0|]. split; [|auto].
  intros Z. unfold variable_fee_numerator, dyn_enabled in V. rewrite Z in V. simpl in V. apply Ok_inj in V. auto.
Qed.

Lemma limiter_dec c act cur d : limiter_active c act cur d \/ ~ limiter_active c act cur d.
Proof.
  unfold limiter_active. cbv zeta. set (b := pf_base (c_fees c)).
  destruct (Z.eq_dec (bf_mode b) 2) as [X1|X1]; [|right; intros (Y & _); contradiction].
  destruct ((bf_first b =? 0) && (bf_second b =? 0) && (bf_third b =? 0)) eqn:X2.
  { right. intros (_ & Y & _). apply Y. lia. }
  destruct d eqn:X3; [right; intros (_ & _ & Y & _); discriminate|].
  destruct (cur <=? act + bf_second b) eqn:X4; [left|right; intros (_ & _ & _ & Y); lia].
  split; [exact X1|]. split; [intros (Y1 & Y2 & Y3); rewrite Y1, Y2, Y3 in X2; discriminate|].
  split; [reflexivity|]. lia.
Qed.

(** While the limiter is in force, any amount below the net of [a] can be turned back into a
    payment. *)
Lemma limiter_inverse_exists c p cur a ex d el num0 : created c ->
  limiter_active c (p_activation p) cur d -> 0 <= a -> a + a / 90000 + 31000 <= U64_MAX ->
  num_included c p cur a d el = Ok num0 ->
  0 <= ex <= a - cdiv (a * num0) FEE_DENOMINATOR ->
  exists num incl fee, num_excluded c p cur ex d el = Ok num
    /\ get_included_fee_amount num ex = Ok (incl, fee)
    /\ incl <= a + a / 90000 + 31000 /\ 0 <= fee <= U64_MAX.
Proof.
  intros C LA A AU H0 X. pose proof (limiter_active_limited _ _ _ _ C LA) as L.
  pose proof (created_fees_ok c C) as F.
  assert (Q1 : 0 <= a / 90000) by (apply Z.div_pos; lia).
  assert (Q2 : a < 90000 * (a / 90000 + 1)) by (pose proof (Z.mul_succ_div_gt a 90000); lia).
  assert (U64 : U64_MAX = 18446744073709551615) by reflexivity.
  pose proof (num_included_bounds _ _ _ _ _ _ _ F A H0) as NB. unfold MAX_FEE_NUMERATOR in NB.
  unfold FEE_DENOMINATOR in X. pose proof (cdiv_ub (a * num0) 1000000000 ltac:(lia)) as U0.
  assert (GO : forall num, 0 <= num <= 990000000 ->
     (forall paid, paid * (1000000000 - num) < ex * 1000000000 + 1000000000 -> paid <= a + a / 90000 + 31000) ->
     exists incl fee, get_included_fee_amount num ex = Ok (incl, fee)
       /\ incl <= a + a / 90000 + 31000 /\ 0 <= fee <= U64_MAX).
  { intros num N G. set (k := cdiv (ex * 1000000000) (1000000000 - num)).
    assert (K : k <= a + a / 90000 + 31000).
    { apply G. assert (K : k - 1 < k) by lia. unfold k in K at 2. apply cdiv_gt in K; lia. }
    assert (0 <= cdiv (a * num0) 1000000000) by (apply cdiv_nonneg; [apply Z.mul_nonneg_nonneg|]; lia).
    destruct (included_intro num ex N ltac:(lia) ltac:(fold k; lia)) as (fee & GE & GL & GF).
    fold k in GE, GL, GF. exists k, fee. split; [exact GE|]. lia. }
  destruct el.
  - exists num0. unfold num_excluded. unfold num_included in H0.
    destruct (GO num0) as (incl & fee & G); [lia| |exists incl, fee; tauto].
    intros paid P. assert (paid < a + 100); [|lia].
    apply (Z.mul_lt_mono_pos_r (1000000000 - num0)); lia.
  - unfold num_included in H0. unfold num_excluded.
    unfold total_num_included in H0. unfold total_num_excluded.
    apply bind_ok in H0. destruct H0 as (b0 & B0 & H0).
    destruct LA as (M & NZ & -> & CU).
    unfold base_num_included in B0. unfold base_num_excluded. rewrite M in *.
    change ((2 =? 0) || (2 =? 1)) with false in *. change (2 =? 2) with true in *. cbv iota in *.
    apply bind_ok in B0. destruct B0 as (ap & AP & B0). rewrite AP. cbn [bind].
    apply rl_applied_inv in AP; [|exact L]. assert (T : ap = true) by lia. rewrite T in *. clear AP T.
    destruct (rl_num_ge _ _ _ L A B0) as (G0 & C0). pose proof L as (LC & _).
    pose proof (prog_bounds _ a L A) as PB.
    pose proof H0 as H0'. apply total_num_bounds in H0; [|apply F|lia]. destruct H0 as (v & V & E0 & V0 & _).
    unfold MAX_FEE_NUMERATOR in E0.
    assert (PN : prog (pf_base (c_fees c)) a <= a * num0).
    { rewrite E0. destruct (Z.min_spec 990000000 (b0 + v)) as [(_ & ->)|(_ & ->)]; [lia|].
      assert (0 <= a * v) by (apply Z.mul_nonneg_nonneg; lia). lia. }
    destruct (inverse_exists (pf_base (c_fees c)) ex a L ltac:(lia) ltac:(lia) ltac:(lia)) as (b1 & B1 & C1).
    rewrite B1. cbn [bind]. unfold total_fee_numerator. rewrite V. cbn [bind].
    assert (VU : v <= U128_MAX - 1000000000 /\ b1 <= 1000000000).
    { split.
      - unfold variable_fee_numerator in V. destruct (negb (dyn_enabled (pf_dyn (c_fees c))));
          [apply Ok_inj in V; subst v; vm_compute; discriminate|].
        apply bind_ok in V. destruct V as (q1 & _ & V). apply bind_ok in V. destruct V as (q2 & _ & V).
        apply bind_ok in V. destruct V as (q3 & _ & V). apply bind_ok in V. destruct V as (q4 & S & V).
        apply sadd_ok in S. apply sdiv_ok in V. destruct V as (-> & _).
        assert (q4 / 100000000000 <= U128_MAX / 100000000000) by (apply Z.div_le_mono; lia).
        eapply Z.le_trans; [eassumption|]. vm_compute. discriminate.
      - destruct (inverse_bounds _ ex b1 L ltac:(lia) B1) as [->|(incl & I1 & I2 & I3 & _)]; [lia|].
        destruct (Z.eq_dec ex 0) as [->|NX].
        { destruct (Z_le_gt_dec b1 1000000000) as [G|G]; auto. exfalso.
          unfold rl_num_excluded in B1. apply bind_ok in B1. destruct B1 as (exr & XR & B1).
          destruct (rl_excl_bounds (pf_base (c_fees c)) (bf_third (pf_base (c_fees c))) exr L ltac:(unfold limited in L; lia) XR) as (_ & _ & XN).
          replace (0 <=? exr) with true in B1 by lia. apply Ok_inj in B1. lia. }
        assert (b1 * incl < 1000000001 * incl) by lia.
        assert (b1 < 1000000001); [|lia]. apply (Z.mul_lt_mono_pos_r incl); lia. }
    rewrite sadd_intro by lia. cbn [bind].
    eexists. 
    replace (if MAX_FEE_NUMERATOR <? v + b1 then MAX_FEE_NUMERATOR else v + b1) with (Z.min 990000000 (b1 + v))
      by (unfold MAX_FEE_NUMERATOR; destruct (990000000 <? v + b1) eqn:Q; lia).
    destruct (GO (Z.min 990000000 (b1 + v))) as (incl & fee & G); [lia| |exists incl, fee; split; [reflexivity|exact G]].
    intros paid P.
    destruct (round_trip (pf_base (c_fees c)) v a b0 ex b1 paid L V0 A ltac:(lia) B0 B1) as (G1 & _); [|exact P|exact G1].
    rewrite <- E0. lia.
Qed.

(** What a partial-fill swap takes from the trader: never more than was offered, except that while
    the rate limiter is in force rounding can add at most 1/90000 of the offer and 31000 units
    (1/4000000 and 500 units without a dynamic fee). The part that reaches the reserve never
    exceeds the offer. *)
Theorem C04_partial_fill : forall w a w',
  reachable w -> sa_mode a = 1 -> exec w (OSwap a) = Ok w' ->
  exists paid got ft referral,
    w_log w' = w_log w ++ swap_movements a paid got ft referral
    /\ sa_amount1 a <= got
    /\ reserve (token_in (sa_dir a)) (w_pool w') - reserve (token_in (sa_dir a)) (w_pool w)
       <= sa_amount0 a
    /\ (~ limiter_active (w_config w) (p_activation (w_pool w))
            (point_of (w_config w) (sa_slot a) (sa_now a)) (sa_dir a) ->
        paid <= sa_amount0 a)
    /\ paid <= sa_amount0 a + sa_amount0 a / 90000 + 31000
    /\ (df_initialized (pf_dyn (c_fees (w_config w))) = 0 ->
        paid <= sa_amount0 a + sa_amount0 a / 4000000 + 500).
Proof.
  intros w a w' R M H. pose proof (iv_created _ (reachable_inv _ R)) as CR.
  destruct (reach_swap _ _ _ R H) as (K & F & HA & _ & r & fm & num & fee & gross
    & pf & cf & cur & p1 & E & PRE & PS).
  pose proof (log_movements _ _ _ _ _ _ _ _ _ _ _ E) as LG.
  exists (sr_included r), (sr_output r), (ftok fm), (sr_referral r).
  unfold process_swap in PS. rewrite M in PS. simpl in PS.
  apply bind_ok in PS. destruct PS as (r' & S & PS).
  apply bind_ok in PS. destruct PS as (u & L & PS). apply Ok_inj in PS. subst r'.
  apply require_ok in L.
  apply reachable_inv in R.
  destruct (pre_swap_ok _ _ _ _ PRE) as (vt & EP).
  apply partial_facts in S; auto; [|rewrite EP; apply (iv_price _ R)].
  destruct S as (n0 & n & f & g & N0 & SF & A & B & C).
  split; [exact LG|]. split; [lia|].
  pose proof (num_included_bounds _ _ _ _ _ _ _ F HA N0) as NB0.
  pose proof (sf_left _ _ _ _ _ _ _ _ SF) as LN. pose proof (sf_excl _ _ _ _ _ _ _ _ SF) as XN.
  assert (EXB : sr_excluded r <= sa_amount0 a).
  { destruct (fm_on_input fm); [|lia].
    assert (0 <= cdiv (sa_amount0 a * n0) FEE_DENOMINATOR) by (apply cdiv_nonneg; [nia|reflexivity]).
    lia. }
  split.
  { destruct (effect_applied _ _ _ _ _ _ _ _ _ _ _ E) as (p2 & AP & SM).
    destruct SM as (_ & M1 & M2 & _). destruct AP as [_ _ _ PB PQ _ _ _ _ _ _ _ _ _ _ _ _ _ _ _].
    unfold reserve, token_in, fi_dq, fi_db in *. destruct (sa_dir a); lia. }
  assert (Q1 : 0 <= sa_amount0 a / 90000) by (apply Z.div_pos; lia).
  assert (Q2 : 0 <= sa_amount0 a / 4000000) by (apply Z.div_pos; lia).
  pose proof (current_point_eq _ _ _ _ (se_point _ _ _ _ _ _ _ _ _ _ _ E)) as CP.
  assert (AC : p_activation p1 = p_activation (w_pool w)) by (rewrite EP; reflexivity).
  set (el := first_swap_eligible (w_config w) (w_pool w) (w_key w) (is_some (sa_referral a)) (sa_view a)) in *.
  rewrite <- CP, <- AC.
  destruct (Z.eq_dec (sr_left r) 0) as [Z0|Z0]; [destruct (A Z0) as (_ & ->); lia|].
  destruct (B ltac:(lia)) as (B1 & B2).
  destruct (fm_on_input fm) eqn:OI; [|destruct (B2 eq_refl); lia]. specialize (B1 eq_refl).
  pose proof (sf_fee _ _ _ _ _ _ _ _ SF) as FE. pose proof (sf_in _ _ _ _ _ _ _ _ SF) as IN.
  pose proof (sf_num _ _ _ _ _ _ _ _ SF) as NB.
  rewrite OI in FE, IN.
  assert (SAME : n = n0 -> sr_included r <= sa_amount0 a).
  { intros ->. destruct (Z_le_gt_dec (sr_included r) (sa_amount0 a)) as [G|G]; auto. exfalso.
    assert (NB' : 0 <= n0 <= FEE_DENOMINATOR) by (unfold MAX_FEE_NUMERATOR, FEE_DENOMINATOR in *; lia).
    pose proof (net_mono (sa_amount0 a) (sr_included r) n0 HA ltac:(lia) NB'). lia. }
  assert (OUTSIDE : ~ limiter_active (w_config w) (p_activation p1) cur (sa_dir a) -> sr_included r <= sa_amount0 a).
  { intros NL. apply SAME. symmetry. exact (num_same _ _ _ _ _ _ _ _ _ NL N0 B1). }
  split; [exact OUTSIDE|].
  destruct (limiter_dec (w_config w) (p_activation p1) cur (sa_dir a)) as [LA|NL]; [|specialize (OUTSIDE NL); lia].
  destruct el eqn:EL.
  { unfold num_included in N0. unfold num_excluded in B1. assert (n = n0) by congruence. specialize (SAME H0). lia. }
  destruct (limiter_nums _ _ _ _ _ _ _ _ _ CR LA eq_refl HA XN N0 B1) as (b0 & b1 & v & R0 & R1 & V0 & VZ & E0 & E1).
  pose proof (limiter_active_limited _ _ _ _ CR LA) as LB.
  unfold FEE_DENOMINATOR in *.
  pose proof (cdiv_ub (sa_amount0 a * n0) 1000000000 ltac:(lia)) as U0.
  destruct (round_trip (pf_base (c_fees (w_config w))) v (sa_amount0 a) b0 (sr_excluded r) b1 (sr_included r)
              LB V0 HA XN R0 R1) as (G1 & G2).
  - rewrite <- E0. lia.
  - rewrite <- E1. assert (KK : cdiv (sr_included r * n) 1000000000 - 1 < cdiv (sr_included r * n) 1000000000) by lia.
    apply cdiv_gt in KK; lia.
  - split; [exact G1|]. intros DZ. apply G2. apply VZ. exact DZ.
Qed.

(** The limiter is in force in this history, and the purchase of the counterexample
    [C04_limiter_overcharge_refuted] is within the bound: 105804207311 for 105804207281. *)
Example C04_case_limiter :
  let a := mkSwapArgs 500 None QuoteToBase 1 105804207281 0 1020 1700000010 plain_view in
  limiter_active (w_config wD) (p_activation (w_pool wD))
    (point_of (w_config wD) (sa_slot a) (sa_now a)) (sa_dir a)
  /\ is_ok (exec wD (OSwap a)) = true
  /\ 105804207311 <= sa_amount0 a + sa_amount0 a / 4000000 + 500.
Proof. vm_compute. repeat split; try discriminate; try reflexivity. intros (A & _). discriminate A. Qed.

(** ** C31 in every mode *)
Lemma limiter_on c p cur d el x num : created c -> limiter_active c (p_activation p) cur d -> el = false -> 0 <= x ->
  (num_included c p cur x d el = Ok num -> exists bn v, rl_num_included (pf_base (c_fees c)) x = Ok bn
     /\ 0 <= v /\ (df_initialized (pf_dyn (c_fees c)) = 0 -> v = 0) /\ num = Z.min 990000000 (bn + v))
  /\ (num_excluded c p cur x d el = Ok num -> exists bn v, rl_num_excluded (pf_base (c_fees c)) x = Ok bn
     /\ 0 <= v /\ (df_initialized (pf_dyn (c_fees c)) = 0 -> v = 0) /\ num = Z.min 990000000 (bn + v)).
Proof.
  intros C LA -> X. pose proof (limiter_active_limited _ _ _ _ C LA) as L. pose proof L as (LC & _).
  pose proof (created_fees_ok c C) as F.
  destruct LA as (M & NZ & -> & CU).
  assert (V0 : forall v vt, variable_fee_numerator (pf_dyn (c_fees c)) vt = Ok v ->
     df_initialized (pf_dyn (c_fees c)) = 0 -> v = 0).
  { intros v vt V Z. unfold variable_fee_numerator, dyn_enabled in V. rewrite Z in V. simpl in V.
    apply Ok_inj in V. auto. }
  split; intros H; unfold num_included, num_excluded, total_num_included, total_num_excluded in H;
  apply bind_ok in H; destruct H as (bn & B & H); unfold base_num_included, base_num_excluded in B; rewrite M in B;
  change ((2 =? 0) || (2 =? 1)) with false in B; change (2 =? 2) with true in B; cbv iota in B;
  apply bind_ok in B; destruct B as (ap & AP & B); apply rl_applied_inv in AP; [|exact L| |exact L];
  assert (T : ap = true) by lia; rewrite T in B; clear AP T.
  - destruct (rl_num_ge _ _ _ L X B) as (_ & G). apply total_num_bounds in H; [|apply F|lia].
    destruct H as (v & V & -> & VN & _). exists bn, v. eauto.
  - pose proof (rl_excluded_num_ge _ _ _ L B) as G. apply total_num_bounds in H; [|apply F|lia].
    destruct H as (v & V & -> & VN & _). exists bn, v. eauto.
Qed.

(** Every buy while the limiter is in force - paying a given amount, partially filled, or for a
    given output - is charged the progressive fee on what it pays, up to 1/5000000 of the payment
    and 601 units; a dynamic fee can only add to it. *)
Theorem C31_any_mode : forall w a w',
  reachable w -> exec w (OSwap a) = Ok w' ->
  let c := w_config w in let b := pf_base (c_fees c) in
  limiter_active c (p_activation (w_pool w)) (point_of c (sa_slot a) (sa_now a)) (sa_dir a) ->
  (* not the discounted first swap *)
  (c_first_swap_min_fee c <> 1 \/ p_has_swap (w_pool w) <> 0) ->
  exists paid got fee referral,
    w_log w' = w_log w ++ swap_movements a paid got TQuote referral
    /\ p_quote (w_pool w') = p_quote (w_pool w) + (paid - fee)
    /\ progressive_fee b paid <= fee + paid / 5000000 + 601
    /\ (df_initialized (pf_dyn (c_fees c)) = 0 ->
        fee <= progressive_fee b paid + paid / 5000000 + 601).
Proof.
  intros w a w' R H c b LA NE. pose proof (iv_created _ (reachable_inv _ R)) as CR.
  destruct (reach_swap _ _ _ R H) as (K & F & HA & _ & r & fm & num & fee & gross
    & pf & cf & cur & p1 & E & PRE & PS).
  pose proof (log_movements _ _ _ _ _ _ _ _ _ _ _ E) as LG.
  pose proof (limiter_active_limited _ _ _ _ CR LA) as L. fold b in L.
  pose proof LA as (M & _ & D & _). fold b in M.
  pose proof (se_fm _ _ _ _ _ _ _ _ _ _ _ E) as FM. rewrite (limiter_on_input _ CR M), D in FM.
  unfold get_fee_mode, collect_of in FM. change (0 =? 0) with true in FM. cbv iota in FM. cbn [bind] in FM.
  apply Ok_inj in FM. subst fm.
  exists (sr_included r), (sr_output r), (sr_included r - sr_excluded r), (sr_referral r).
  split; [exact LG|]. split.
  { destruct (effect_applied _ _ _ _ _ _ _ _ _ _ _ E) as (p2 & AP & SM).
    destruct SM as (_ & M1 & M2 & _). destruct AP as [_ _ _ PB PQ _ _ _ _ _ _ _ _ _ _ _ _ _ _ _].
    rewrite D in PQ. unfold fi_dq in PQ. lia. }
  destruct (pre_swap_ok _ _ _ _ PRE) as (vt & EP).
  pose proof (current_point_eq _ _ _ _ (se_point _ _ _ _ _ _ _ _ _ _ _ E)) as CP.
  assert (AC : p_activation p1 = p_activation (w_pool w)) by (rewrite EP; reflexivity).
  unfold c in LA. rewrite <- CP, <- AC in LA.
  assert (EL : first_swap_eligible (w_config w) (w_pool w) (w_key w) (is_some (sa_referral a)) (sa_view a) = false).
  { unfold first_swap_eligible. destruct (c_first_swap_min_fee (w_config w) =? 1) eqn:E1; [|reflexivity].
    destruct (p_has_swap (w_pool w) =? 0) eqn:E2; [|reflexivity]. unfold c in NE. lia. }
  assert (PR : c_start (w_config w) <= p_price p1 <= c_mig_price (w_config w)).
  { rewrite EP. apply (iv_price _ (reachable_inv _ R)). }
  (* where the rate comes from *)
  assert (W : exists n f g, swap_facts (w_config w) (p_price p1) (mkFeeMode true false (is_some (sa_referral a))) (sa_dir a) r n f g
     /\ (num_included (w_config w) p1 cur (sr_included r) (sa_dir a) false = Ok n
         \/ num_excluded (w_config w) p1 cur (sr_excluded r) (sa_dir a) false = Ok n)).
  { rewrite EL in PS. unfold process_swap in PS.
    destruct (sa_mode a =? 0); [|destruct (sa_mode a =? 1); [|destruct (sa_mode a =? 2); [|discriminate]]];
    apply bind_ok in PS; destruct PS as (r' & S & PS);
    apply bind_ok in PS; destruct PS as (u & _ & PS); apply Ok_inj in PS; subst r'.
    - apply exact_in_facts in S; auto. destruct S as (n & f & g & N & S & I & _). rewrite <- I in N. eauto 8.
    - apply partial_facts in S; auto. destruct S as (n0 & n & f & g & N & S & A & B & _).
      exists n, f, g. split; [exact S|]. pose proof (sf_left _ _ _ _ _ _ _ _ S).
      destruct (Z.eq_dec (sr_left r) 0) as [Z0|Z0].
      + destruct (A Z0) as (-> & ->). auto.
      + destruct (B ltac:(lia)) as (B1 & _). right. apply B1. reflexivity.
    - apply exact_out_facts in S; auto. destruct S as (n & f & g & N & S & _). exists n, f, g. auto. }
  destruct W as (n & f & g & SF & N).
  pose proof (sf_fee _ _ _ _ _ _ _ _ SF) as FE. pose proof (sf_in _ _ _ _ _ _ _ _ SF) as IN.
  pose proof (sf_excl _ _ _ _ _ _ _ _ SF) as X0. pose proof (sf_fee_nonneg _ _ _ _ _ _ _ _ SF) as F0.
  pose proof (sf_num _ _ _ _ _ _ _ _ SF) as NB.
  cbn [fm_on_input] in FE, IN. unfold MAX_FEE_NUMERATOR, FEE_DENOMINATOR in *.
  set (paid := sr_included r) in *. set (ex := sr_excluded r) in *.
  replace (paid - ex) with f by lia.
  assert (Q : 0 <= paid / 5000000) by (apply Z.div_pos; lia).
  assert (Q2 : paid < 5000000 * (paid / 5000000 + 1)) by (pose proof (Z.mul_succ_div_gt paid 5000000); lia).
  unfold progressive_fee. change (progressive (bf_cliff b) (bf_first b * 100000) (bf_third b) (Z.to_nat paid)) with (prog b paid).
  pose proof (cdiv_ub (prog b paid) 1000000000 ltac:(lia)) as PU.
  assert (FU : paid * n <= f * 1000000000) by (rewrite FE; apply cdiv_ub; lia).
  assert (FL : f * 1000000000 < paid * n + 1000000000).
  { assert (KK : f - 1 < f) by lia. rewrite FE in KK at 2. apply cdiv_gt in KK; lia. }
  destruct N as [N|N].
  - destruct (proj1 (limiter_on _ _ _ _ _ paid n CR LA eq_refl ltac:(lia)) N) as (bn & v & B & V0 & VZ & E1).
    destruct (Z.eq_dec paid 0) as [P0|P0].
    { rewrite P0 in *. assert (f = 0) by lia. pose proof (prog_bounds b 0 L ltac:(lia)).
      replace (prog b 0) with 0 by lia. change (cdiv 0 1000000000) with 0. change (0 / 5000000) with 0. lia. }
    destruct (charged_bounds b paid v bn L ltac:(lia) V0 B) as (G1 & G2). rewrite <- E1 in G1, G2.
    rewrite !ceil_div_cdiv in G1 by lia. rewrite (ceil_div_cdiv (n * paid)), (ceil_div_cdiv paid) in G2 by lia. rewrite (Z.mul_comm n paid), <- FE in G1, G2.
    unfold progressive_fee in G1, G2. change (progressive (bf_cliff b) (bf_first b * 100000) (bf_third b) (Z.to_nat paid)) with (prog b paid) in G1, G2.
    split; [lia|]. intros DF. specialize (G2 (VZ DF)).
    assert (cdiv paid 1000000000 <= paid / 5000000 + 1) by (apply cdiv_le; lia). lia.
  - destruct (proj2 (limiter_on _ _ _ _ _ ex n CR LA eq_refl X0) N) as (bn & v & B & V0 & VZ & E1).
    assert (PX : ex * 1000000000 <= paid * (1000000000 - n)).
    { replace (paid * (1000000000 - n)) with (paid * 1000000000 - paid * n) by ring. lia. }
    destruct (inverse_charge b ex bn paid n L X0 B ltac:(lia) ltac:(lia) PX) as (G1 & G2).
    split.
    + apply cdiv_le; [lia|]. lia.
    + intros DF. rewrite (VZ DF) in E1. specialize (G2 ltac:(rewrite E1; f_equal; lia) ltac:(lia)). lia.
Qed.

(** The hypotheses hold of a partial fill and of an exact-output purchase in the window. *)
Example C31_case_any_mode :
  let c := w_config wD in
  let a1 := mkSwapArgs 500 None QuoteToBase 1 105804207281 0 1020 1700000010 plain_view in
  let a2 := mkSwapArgs 500 None QuoteToBase 2 50000000000000 1000000000000000 1020 1700000010 plain_view in
  limiter_active c (p_activation (w_pool wD)) (point_of c (sa_slot a1) (sa_now a1)) (sa_dir a1)
  /\ limiter_active c (p_activation (w_pool wD)) (point_of c (sa_slot a2) (sa_now a2)) (sa_dir a2)
  /\ (c_first_swap_min_fee c <> 1 \/ p_has_swap (w_pool wD) <> 0)
  /\ is_ok (exec wD (OSwap a1)) = true /\ is_ok (exec wD (OSwap a2)) = true.
Proof.
  vm_compute. repeat split; try discriminate; try (intros (A & _); discriminate A). left. discriminate.
Qed.

Print Assumptions C04_partial_fill.
Print Assumptions C31_any_mode.
