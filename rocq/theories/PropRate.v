(** * Fee rates charged by swaps: C05, C31, C32. *)
From Coq Require Import ZArith QArith List Bool Lia ZifyBool Lqa.
From Verif Require Import Base MathModel CurveModel FeeModel ConfigModel PoolModel TxModel
  SystemModel Spec Lib CurveProofs CurveLoops Potential CalcProofs ConfigProofs FeeProofs
  SwapProofs InvProofs InvOps InvReach PropSwap PropMath PropSched PropLimiter Fixtures FixturesReach.
Import ListNotations.
Open Scope Z_scope.
#[local] Arguments Z.pow : simpl never.
#[local] Arguments Z.testbit : simpl never.

(** ** The base fee never goes below 0.25% *)
Lemma sched_floor c cur act n : created c ->
  bf_mode (pf_base (c_fees c)) = 0 \/ bf_mode (pf_base (c_fees c)) = 1 ->
  sched_numerator (pf_base (c_fees c)) cur act = Ok n -> 2500000 <= n.
Proof.
  intros C M H. destruct (created_base c C) as (T & ac & _ & V).
  set (b := pf_base (c_fees c)) in *.
  assert (SV : sched_validate b = Ok tt).
  { unfold base_fee_validate in V. replace ((bf_mode b =? 0) || (bf_mode b =? 1)) with true in V by lia. exact V. }
  destruct (sched_validate_inv b T SV) as (_ & mn & MN & M1 & Z).
  pose proof (sched_min_le b mn T SV MN).
  unfold sched_numerator in H. destruct (bf_second b =? 0) eqn:E.
  - apply Ok_inj in H. lia.
  - assert (A : act <= cur).
    { apply bind_ok in H. destruct H as (e & X & _). apply ssub_ok in X. lia. }
    assert (F : falling (fun t => sched_numerator b t act) act (act + bf_first b * bf_second b) (bf_cliff b)).
    { destruct M as [M|M].
      - destruct (C29_linear c act QuoteToBase 0 C M) as (F & _). eapply falling_ext; [|exact F].
        intros t. cbv beta. symmetry. apply (proj1 (base_num_sched _ _ _ _ _ (or_introl M))).
      - destruct (C30_exponential c act QuoteToBase 0 C M) as (F & _). eapply falling_ext; [|exact F].
        intros t. cbv beta. symmetry. apply (proj1 (base_num_sched _ _ _ _ _ (or_intror M))). }
    destruct F as (_ & F). destruct (F cur cur) as (f1 & f2 & F1 & F2 & LO & _); [lia|].
    unfold sched_numerator in F2. rewrite E in F2. rewrite F2 in H. apply Ok_inj in H. lia.
Qed.

Lemma limiter_cases c : created c -> bf_mode (pf_base (c_fees c)) = 2 ->
  let b := pf_base (c_fees c) in
  2500000 <= bf_cliff b <= 990000000
  /\ ((bf_first b = 0 /\ bf_second b = 0 /\ bf_third b = 0) \/ limited b).
Proof.
  intros C M b. destruct (created_base c C) as (T & ac & _ & V). eapply limiter_valid; eauto.
Qed.

Lemma mode_cases c : created c -> let b := pf_base (c_fees c) in
  bf_mode b = 0 \/ bf_mode b = 1 \/ bf_mode b = 2.
Proof.
  intros C b. destruct (created_base c C) as (T & ac & _ & V). fold b in V. unfold base_fee_validate in V.
  destruct (bf_mode b =? 0) eqn:A; [lia|]. destruct (bf_mode b =? 1) eqn:B; [lia|].
  destruct (bf_mode b =? 2) eqn:D; [lia|discriminate].
Qed.

Lemma base_floor c cur act d x n : created c -> 0 <= x ->
  (base_num_included (pf_base (c_fees c)) cur act d x = Ok n
   \/ base_num_excluded (pf_base (c_fees c)) cur act d x = Ok n) ->
  2500000 <= n /\ (bf_mode (pf_base (c_fees c)) = 2 -> bf_cliff (pf_base (c_fees c)) <= n).
Proof.
  intros C X H. set (b := pf_base (c_fees c)) in *.
  destruct (mode_cases c C) as [M|[M|M]]; fold b in M.
  1,2: split; [|intros; lia]; apply (sched_floor c cur act n C); [fold b; auto|fold b];
    destruct (base_num_sched b cur act d x ltac:(auto)) as (E1 & E2);
    destruct H as [H|H]; [rewrite E1 in H|rewrite E2 in H]; exact H.
  destruct (limiter_cases c C M) as (CL & Z). fold b in CL, Z.
  assert (G : bf_cliff b <= n); [|split; [lia|auto]].
  unfold base_num_included, base_num_excluded in H. rewrite M in H.
  change ((2 =? 0) || (2 =? 1)) with false in H. change (2 =? 2) with true in H. cbv iota in H.
  destruct Z as [(Z1 & Z2 & Z3)|L].
  - unfold rl_applied, rl_is_zero in H. rewrite Z1, Z2, Z3 in H. cbn [Z.eqb andb bind] in H.
    destruct H as [H|H]; apply Ok_inj in H; lia.
  - destruct H as [H|H]; apply bind_ok in H; destruct H as (ap & AP & H); destruct ap;
    try (apply Ok_inj in H; lia).
    + apply rl_included_inv in H; auto. lia.
    + apply rl_excluded_num_ge in H; auto.
Qed.

(** The numerator actually charged. *)
Lemma num_floor c p cur d el num : created c -> num_from c p cur d el num ->
  2500000 <= num /\ (bf_mode (pf_base (c_fees c)) = 2 -> bf_cliff (pf_base (c_fees c)) <= num).
Proof.
  intros C (x & X & H). pose proof (created_fees_ok c C) as F.
  destruct F as [TB TD TC (mn & M & M2) _]. unfold num_included, num_excluded in H.
  destruct el.
  - assert (E : min_base_fee_numerator (pf_base (c_fees c)) = Ok num) by (destruct H; assumption).
    rewrite M in E. apply Ok_inj in E. subst num. unfold MIN_FEE_NUMERATOR in M2. split; [lia|].
    intros MO. unfold min_base_fee_numerator in M. rewrite MO in M. simpl in M. apply Ok_inj in M. lia.
  - assert (E : exists bn, (base_num_included (pf_base (c_fees c)) cur (p_activation p) d x = Ok bn
        \/ base_num_excluded (pf_base (c_fees c)) cur (p_activation p) d x = Ok bn)
       /\ total_fee_numerator (pf_dyn (c_fees c)) bn (p_tracker p) = Ok num).
    { unfold total_num_included, total_num_excluded in H.
      destruct H as [H|H]; apply bind_ok in H; destruct H as (bn & B & H); exists bn; auto. }
    destruct E as (bn & B & T). apply base_floor in B; auto. destruct B as (B1 & B2).
    apply total_num_bounds in T; auto; [|lia]. destruct T as (v & _ & -> & V & _).
    unfold MAX_FEE_NUMERATOR in *. split; [lia|]. intros MO. specialize (B2 MO).
    destruct (limiter_cases c C MO) as (CL & _). lia.
Qed.

(** ** C05: every swap is charged between 0.25% and 99% of the amount the fee applies to (the
    payment when the fee is taken from the input, the gross output otherwise), rounded up. *)
Theorem C05_fee_rate : forall w a w',
  reachable w -> exec w (OSwap a) = Ok w' ->
  exists paid got fee referral ft num,
    let taxed := if c_collect_fee_mode (w_config w) =? 0
                 then match sa_dir a with QuoteToBase => paid | BaseToQuote => got + fee end
                 else got + fee in
    w_log w' = w_log w ++ swap_movements a paid got ft referral
    /\ paid = reserve (token_in (sa_dir a)) (w_pool w') - reserve (token_in (sa_dir a)) (w_pool w)
              + on ft (token_in (sa_dir a)) fee
    /\ reserve (token_out (sa_dir a)) (w_pool w) - reserve (token_out (sa_dir a)) (w_pool w')
       = got + on ft (token_out (sa_dir a)) fee
    /\ 2500000 <= num <= 990000000
    /\ fee = ceil_div (num * taxed) 1000000000
    /\ ceil_div (25 * taxed) 10000 <= fee <= ceil_div (99 * taxed) 100
    /\ (bf_mode (pf_base (c_fees (w_config w))) = 2 ->
        ceil_div (bf_cliff (pf_base (c_fees (w_config w))) * taxed) 1000000000 <= fee).
Proof.
  intros w a w' R H. destruct (swap_observed_num _ _ _ R H) as (paid & got & fee & tr & pr & rf & num
   & C & P1 & P2 & P3 & P4 & P5 & LG & IN & OUT & _ & FS & NB & FE & _ & _ & vt & _ & _ & NF & _).
  pose proof (iv_created _ (reachable_inv _ R)) as CR.
  destruct (num_floor _ _ _ _ _ _ CR NF) as (N1 & N2).
  eexists paid, got, fee, rf, _, num. cbv zeta.
  split; [exact LG|]. split; [exact IN|]. split; [exact OUT|]. split; [lia|]. split; [exact FE|].
  set (tx := if c_collect_fee_mode (w_config w) =? 0
             then match sa_dir a with QuoteToBase => paid | BaseToQuote => got + fee end
             else got + fee) in *.
  assert (T0 : 0 <= tx).
  { unfold tx. destruct (c_collect_fee_mode (w_config w) =? 0); [destruct (sa_dir a)|]; lia. }
  clearbody tx. rewrite !ceil_div_cdiv in * by reflexivity.
  assert (U : num * tx <= fee * 1000000000) by (rewrite FE; apply cdiv_ub; lia).
  assert (L : forall k, k * 1000000000 < num * tx -> k < fee).
  { intros k K. rewrite FE. apply cdiv_gt; lia. }
  assert (M1 : 2500000 * tx <= num * tx) by (apply Z.mul_le_mono_nonneg_r; lia).
  assert (M2 : num * tx <= 990000000 * tx) by (apply Z.mul_le_mono_nonneg_r; lia).
  repeat split.
  - apply cdiv_le; [lia|]. lia.
  - rewrite FE. apply cdiv_le; [lia|].
    assert (99 * tx <= cdiv (99 * tx) 100 * 100) by (apply cdiv_ub; lia). lia.
  - intros MO. specialize (N2 MO). apply cdiv_le; [lia|].
    assert (bf_cliff (pf_base (c_fees (w_config w))) * tx <= num * tx) by (apply Z.mul_le_mono_nonneg_r; lia).
    lia.
Qed.

(** A 5% to 1% schedule: 2.6% after six minutes; a buy then succeeds. *)
Example C05_case :
  num_included cfgA (w_pool wA) 1700000370 1000000 QuoteToBase false = Ok 26000000
  /\ is_ok (exec wA (swp 500 None QuoteToBase 0 1000000 1 1700000370 plain_view)) = true.
Proof. vm_compute. auto. Qed.

(** ** C31: the rate limiter *)

(** A larger buy is never charged less by the schedule. *)
Theorem C31_schedule_monotone : forall b n m, limited b -> 0 <= n <= m ->
  progressive_fee b n <= progressive_fee b m.
Proof.
  intros b n m (C & F & _ & X) H. unfold progressive_fee. apply cdiv_mono; [lia|].
  replace (Z.to_nat m) with (Z.to_nat n + Z.to_nat (m - n))%nat by lia.
  generalize (Z.to_nat (m - n)) as k. intros k. induction k.
  - rewrite Nat.add_0_r. lia.
  - replace (Z.to_nat n + S k)%nat with (S (Z.to_nat n + k)) by lia. cbn [progressive]. etransitivity; [exact IHk|].
    unfold marginal. set (u := Z.of_nat (Z.to_nat n + k) / bf_third b).
    assert (0 <= u) by (apply Z.div_pos; lia).
    assert (0 <= bf_first b * 100000 * u) by (apply Z.mul_nonneg_nonneg; lia). lia.
Qed.

Lemma progressive_small c i x0 n : c <= 990000000 -> 0 < x0 -> Z.of_nat n <= x0 ->
  progressive c i x0 n = c * Z.of_nat n.
Proof.
  intros C X. induction n; intros H; [simpl; lia|].
  cbn [progressive]. rewrite IHn by lia. rewrite Z.div_small by lia. unfold marginal.
  rewrite Z.mul_0_r, Z.min_l by lia. lia.
Qed.

Lemma charged_bounds b n v num : limited b -> 1 <= n -> 0 <= v -> rl_num_included b n = Ok num ->
  let t := Z.min 990000000 (num + v) in
  progressive_fee b n <= ceil_div (t * n) 1000000000
  /\ (v = 0 -> ceil_div (t * n) 1000000000 <= progressive_fee b n + ceil_div n 1000000000).
Proof.
  intros L N V H t. apply rl_included_inv in H; [|exact L|lia]. destruct H as (E & G).
  rewrite !ceil_div_cdiv by reflexivity.
  pose proof L as (C & F & _ & X).
  pose proof (progressive_bounds (bf_cliff b) (bf_first b * 100000) (bf_third b) (Z.to_nat n)
                ltac:(lia) ltac:(lia) ltac:(lia)) as PB. rewrite Z2Nat.id in PB by lia.
  set (T := progressive (bf_cliff b) (bf_first b * 100000) (bf_third b) (Z.to_nat n)) in *.
  assert (PE : progressive_fee b n = cdiv T 1000000000) by reflexivity.
  assert (NN : T <= num * n /\ num * n <= progressive_fee b n * 1000000000 + n).
  { destruct (n <=? bf_third b) eqn:S.
    - subst num. assert (TT : T = bf_cliff b * n).
      { unfold T. rewrite progressive_small by lia. rewrite Z2Nat.id by lia. reflexivity. }
      split; [lia|]. rewrite PE. assert (T <= cdiv T 1000000000 * 1000000000) by (apply cdiv_ub; lia). lia.
    - assert (T <= progressive_fee b n * 1000000000) by (rewrite PE; apply cdiv_ub; lia).
      assert (progressive_fee b n * 1000000000 <= num * n) by (rewrite E; apply cdiv_ub; lia).
      split; [lia|]. assert (K : num - 1 < num) by lia. rewrite E in K at 2. apply cdiv_gt in K; lia. }
  clearbody T. destruct NN as (N1 & N2). split.
  - rewrite PE. apply cdiv_le; [lia|]. etransitivity; [|apply cdiv_ub; lia].
    unfold t. destruct (Z.min_spec 990000000 (num + v)) as [(_ & ->)|(_ & ->)].
    + lia.
    + assert (0 <= v * n) by (apply Z.mul_nonneg_nonneg; lia). lia.
  - intros ->. apply cdiv_le; [lia|].
    assert (t * n <= num * n) by (apply Z.mul_le_mono_nonneg_r; unfold t; lia).
    assert (n <= cdiv n 1000000000 * 1000000000) by (apply cdiv_ub; lia). lia.
Qed.

Lemma limiter_on_input c : created c -> bf_mode (pf_base (c_fees c)) = 2 -> c_collect_fee_mode c = 0.
Proof.
  intros C M. destruct (created_base c C) as (T & ac & _ & V). unfold base_fee_validate in V. rewrite M in V.
  change ((2 =? 0) || (2 =? 1)) with false in V. change (2 =? 2) with true in V. cbv iota in V.
  unfold rl_validate in V. apply bind_ok in V. destruct V as (cm & CM & V). apply bind_ok in V.
  destruct V as (u & R & _). apply require_ok in R. unfold collect_of in CM.
  destruct (c_collect_fee_mode c =? 0) eqn:E; [lia|].
  destruct (c_collect_fee_mode c =? 1); [|discriminate]. apply Ok_inj in CM. subst cm. discriminate.
Qed.

(** A buy of a given quote amount while the limiter is in force pays at least the progressive fee;
    without a dynamic fee on top it pays at most one unit per 10^9 (or part) more. *)
Theorem C31_progressive_fee : forall w a w',
  reachable w -> exec w (OSwap a) = Ok w' -> sa_mode a = 0 ->
  let c := w_config w in let b := pf_base (c_fees c) in
  limiter_active c (p_activation (w_pool w)) (point_of c (sa_slot a) (sa_now a)) (sa_dir a) ->
  (* not the discounted first swap *)
  (c_first_swap_min_fee c <> 1 \/ p_has_swap (w_pool w) <> 0) ->
  exists got fee referral,
    w_log w' = w_log w ++ swap_movements a (sa_amount0 a) got TQuote referral
    /\ p_quote (w_pool w') = p_quote (w_pool w) + (sa_amount0 a - fee)
    /\ progressive_fee b (sa_amount0 a) <= fee
    /\ (df_initialized (pf_dyn (c_fees c)) = 0 ->
        fee <= progressive_fee b (sa_amount0 a) + ceil_div (sa_amount0 a) 1000000000).
Proof.
  intros w a w' R H MO c b LA NE. destruct (swap_observed_num _ _ _ R H) as (paid & got & fee & tr & pr & rf & num
   & C & P1 & P2 & P3 & P4 & P5 & LG & IN & OUT & _ & FS & NB & FE & _ & _ & vt & _ & _ & _ & NI).
  pose proof (iv_created _ (reachable_inv _ R)) as CR.
  destruct (NI MO) as (PA & N). clear NI.
  destruct LA as (M & NZ & D & W). fold b in M, NZ, W.
  pose proof (limiter_on_input c CR M) as CM. unfold c in CM. rewrite CM in LG, FE, IN.
  change (0 =? 0) with true in LG, FE, IN. cbv iota in LG, FE, IN. rewrite D in IN, FE.
  exists got, fee, rf. split; [rewrite PA in LG; exact LG|].
  split; [rewrite PA in IN; cbn [token_in reserve on] in IN; lia|].
  destruct (limiter_cases c CR M) as (CL & [Z|L]); [contradiction|]. fold b in L, CL.
  assert (EL : first_swap_eligible (w_config w) (w_pool w) (w_key w) (is_some (sa_referral a)) (sa_view a) = false).
  { unfold first_swap_eligible. destruct (c_first_swap_min_fee (w_config w) =? 1) eqn:E1; [|reflexivity].
    destruct (p_has_swap (w_pool w) =? 0) eqn:E2; [|reflexivity]. unfold c in NE. lia. }
  rewrite EL in N. unfold num_included, total_num_included in N. apply bind_ok in N. destruct N as (bn & B & T).
  assert (A1 : 1 <= sa_amount0 a).
  { unfold exec in H. apply bind_ok in H. destruct H as (u & _ & H). unfold do_swap, swap_full in H.
    apply bind_ok in H. destruct H as (x & X & _). apply bind_ok in X. destruct X as (u2 & X & _).
    apply require_ok in X. lia. }
  fold c b in B. unfold base_num_included in B. rewrite M in B.
  change ((2 =? 0) || (2 =? 1)) with false in B. change (2 =? 2) with true in B. cbv iota in B.
  apply bind_ok in B. destruct B as (ap & AP & B). apply rl_applied_inv in AP; auto. rewrite D in AP.
  simpl in AP. fold c in AP. replace (point_of c (sa_slot a) (sa_now a) <=? p_activation (w_pool w) + bf_second b) with true in AP by lia.
  subst ap. destruct (created_fees_ok c CR) as [TB TD _ _ _].
  destruct (rl_included_inv b (sa_amount0 a) bn L ltac:(lia) B) as (_ & GE).
  apply total_num_bounds in T; [|exact TD|lia]. destruct T as (v & VE & -> & V0 & _).
  destruct (charged_bounds b (sa_amount0 a) v bn L A1 V0 B) as (G1 & G2).
  rewrite PA in FE. unfold MAX_FEE_NUMERATOR in FE. rewrite FE. split; [exact G1|].
  intros DF. apply G2. unfold variable_fee_numerator, dyn_enabled in VE. fold c in VE. rewrite DF in VE.
  simpl in VE. apply Ok_inj in VE. auto.
Qed.

(** Sells, and buys outside the window, pay the cliff rate (plus any dynamic fee). *)
Theorem C31_otherwise_cliff : forall w a w',
  reachable w -> exec w (OSwap a) = Ok w' ->
  let c := w_config w in let b := pf_base (c_fees c) in
  bf_mode b = 2 -> df_initialized (pf_dyn (c_fees c)) = 0 ->
  ~ limiter_active c (p_activation (w_pool w)) (point_of c (sa_slot a) (sa_now a)) (sa_dir a) ->
  exists paid got fee referral,
    w_log w' = w_log w ++ swap_movements a paid got TQuote referral
    /\ fee = ceil_div (bf_cliff b * match sa_dir a with QuoteToBase => paid | BaseToQuote => got + fee end)
               1000000000
    /\ match sa_dir a with
       | QuoteToBase => p_quote (w_pool w') = p_quote (w_pool w) + (paid - fee)
       | BaseToQuote => p_quote (w_pool w') = p_quote (w_pool w) - (got + fee)
       end.
Proof.
  intros w a w' R H c b M DF LA. destruct (swap_observed_num _ _ _ R H) as (paid & got & fee & tr & pr & rf & num
   & C & P1 & P2 & P3 & P4 & P5 & LG & IN & OUT & _ & FS & NB & FE & _ & _ & vt & _ & _ & NF & _).
  pose proof (iv_created _ (reachable_inv _ R)) as CR.
  pose proof (limiter_on_input c CR M) as CM. unfold c in CM. rewrite CM in LG, FE, IN, OUT.
  change (0 =? 0) with true in LG, FE, IN, OUT. cbv iota in LG, FE, IN, OUT.
  exists paid, got, fee, rf. split; [exact LG|]. split.
  2:{ destruct (sa_dir a); simpl in IN, OUT; lia. }
  assert (NE : num = bf_cliff b); [|rewrite <- NE; exact FE].
  destruct NF as (x & X & NF). unfold num_included, num_excluded in NF.
  destruct (first_swap_eligible _ _ _ _ _).
  - assert (E : min_base_fee_numerator b = Ok num) by (destruct NF; assumption).
    unfold min_base_fee_numerator in E. rewrite M in E. simpl in E. apply Ok_inj in E. auto.
  - assert (E : exists bn, (base_num_included b (point_of c (sa_slot a) (sa_now a)) (p_activation (w_pool w)) (sa_dir a) x = Ok bn
        \/ base_num_excluded b (point_of c (sa_slot a) (sa_now a)) (p_activation (w_pool w)) (sa_dir a) x = Ok bn)
       /\ total_fee_numerator (pf_dyn (c_fees c)) bn vt = Ok num).
    { unfold total_num_included, total_num_excluded in NF. fold c b in NF.
      destruct NF as [N|N]; apply bind_ok in N; destruct N as (bn & B & N); exists bn; auto. }
    destruct E as (bn & B & T).
    assert (BE : bn = bf_cliff b).
    { unfold base_num_included, base_num_excluded in B. rewrite M in B.
      change ((2 =? 0) || (2 =? 1)) with false in B. change (2 =? 2) with true in B. cbv iota in B.
      assert (AF : forall ap, rl_applied b (point_of c (sa_slot a) (sa_now a)) (p_activation (w_pool w)) (sa_dir a) = Ok ap -> ap = false).
      { intros ap AP. pose proof (limiter_cases c CR M) as LC. cbv zeta in LC. fold b in LC.
        destruct LC as (CL & [(Z1 & Z2 & Z3)|L]).
        - unfold rl_applied, rl_is_zero in AP. rewrite Z1, Z2, Z3 in AP. simpl in AP. apply Ok_inj in AP. auto.
        - apply rl_applied_inv in AP; auto. destruct (sa_dir a); [exact AP|].
          destruct (point_of c (sa_slot a) (sa_now a) <=? p_activation (w_pool w) + bf_second b) eqn:E; [|exact AP].
          exfalso. apply LA. unfold limiter_active. fold b. unfold limited in L.
          repeat split; auto; lia. }
      destruct B as [B|B]; apply bind_ok in B; destruct B as (ap & AP & B); apply AF in AP; subst ap;
      apply Ok_inj in B; auto. }
    subst bn. destruct (limiter_cases c CR M) as (CL & _). fold b in CL.
    unfold total_fee_numerator, variable_fee_numerator, dyn_enabled in T. rewrite DF in T.
    change (negb (negb (0 =? 0))) with true in T. cbv iota in T. cbn [bind] in T.
    apply bind_ok in T. destruct T as (s & S & T). apply sadd_ok in S. destruct S as (-> & _).
    apply Ok_inj in T. unfold MAX_FEE_NUMERATOR in T.
    destruct (990000000 <? 0 + bf_cliff b) eqn:Q; lia.
Qed.

(** A buy of one unit more can be charged a smaller fee: the fee is first turned into a rate
    rounded up to 1/10^9, and a larger amount can get a lower rate. 75355553080 pays 75 units
    less than 75355553079. *)
Theorem C31_monotone_charge_refuted :
  exists c n p1 p2, created c /\ bf_mode (pf_base (c_fees c)) = 2 /\ 0 < n
    /\ base_num_included (pf_base (c_fees c)) 100 100 QuoteToBase n = Ok p1
    /\ base_num_included (pf_base (c_fees c)) 100 100 QuoteToBase (n + 1) = Ok p2
    /\ ceil_div (p2 * (n + 1)) 1000000000 < ceil_div (p1 * n) 1000000000.
Proof.
  exists cfgC, 75355553079, 381792970, 381792969. split; [apply createdC|].
  vm_compute. repeat split; reflexivity.
Qed.

Example C31_case : limited (pf_base (c_fees cfgC))
  /\ limiter_active cfgC (p_activation (w_pool wC)) (point_of cfgC 1000 1700000100) QuoteToBase
  /\ is_ok (exec wC (swp 500 None QuoteToBase 0 5000000000 1 1700000100 plain_view)) = true.
Proof.
  split; [vm_compute; repeat split; congruence|]. split; [|vm_compute; reflexivity].
  unfold limiter_active. vm_compute. repeat split; try congruence. intros (K & _). discriminate.
Qed.

(** ** C32: grossing up and deducting the fee are inverse *)
Theorem C32_round_trip : forall num net gross fee,
  0 <= num -> 0 <= net <= U64_MAX ->
  get_included_fee_amount num net = Ok (gross, fee) ->
  gross = net + fee
  /\ get_excluded_fee_amount num gross = Ok (net, fee)
  (* and it is the least amount that leaves [net] *)
  /\ (forall smaller rest f, 0 <= smaller < gross ->
        get_excluded_fee_amount num smaller = Ok (rest, f) -> rest < net).
Proof.
  intros num net gross fee N A H. apply included_fee_ok in H; try lia.
  destruct H as (N1 & G & F0 & F1 & G1 & G2). split; [exact G|]. split.
  - unfold get_excluded_fee_amount.
    assert (P : 0 <= gross * num <= U64_MAX * FEE_DENOMINATOR).
    { split; [apply Z.mul_nonneg_nonneg; lia|apply Z.mul_le_mono_nonneg; lia]. }
    rewrite mul_div_cast_up_intro; unfold FEE_DENOMINATOR, U64_MAX, U128_MAX in *; try lia.
    cbn [bind]. rewrite <- F1. rewrite ssub_intro by lia. cbn [bind]. repeat f_equal. lia.
  - intros s rest f S E. unfold get_excluded_fee_amount in E.
    apply bind_ok in E. destruct E as (f' & E1 & E). apply mul_div_cast_up in E1. destruct E1 as (-> & _).
    apply bind_ok in E. destruct E as (x & E1 & E). apply ssub_ok in E1. apply Ok_inj in E. apply pair_inj in E.
    destruct E as (<- & _). destruct E1 as (-> & _).
    assert (K : s < gross) by lia. rewrite G1 in K. apply cdiv_gt in K; [|lia].
    assert (s - net < cdiv (s * num) FEE_DENOMINATOR); [|lia].
    apply cdiv_gt; [reflexivity|]. lia.
Qed.

(** Deducting first and grossing up again never asks for more than the original amount. *)
Theorem C32_round_trip_down : forall num gross net fee gross' fee',
  0 <= num -> 0 <= gross ->
  get_excluded_fee_amount num gross = Ok (net, fee) ->
  get_included_fee_amount num net = Ok (gross', fee') ->
  gross' <= gross.
Proof.
  intros num gross net fee gross' fee' N G E I. unfold get_excluded_fee_amount in E.
  apply bind_ok in E. destruct E as (f' & E1 & E). apply mul_div_cast_up in E1. destruct E1 as (-> & _).
  apply bind_ok in E. destruct E as (x & E1 & E). apply ssub_ok in E1. apply Ok_inj in E. apply pair_inj in E.
  destruct E as (<- & _). destruct E1 as (-> & E1). apply included_fee_ok in I; try lia.
  destruct I as (N1 & _ & _ & _ & -> & _). apply cdiv_le; [lia|].
  assert (gross * num <= cdiv (gross * num) FEE_DENOMINATOR * FEE_DENOMINATOR) by (apply cdiv_ub; reflexivity). lia.
Qed.

Example C32_case : get_included_fee_amount 25000000 1000003 = Ok (1025645, 25642).
Proof. vm_compute. reflexivity. Qed.

Print Assumptions C05_fee_rate.
Print Assumptions C31_schedule_monotone.
Print Assumptions C31_progressive_fee.
Print Assumptions C31_otherwise_cliff.
Print Assumptions C31_monotone_charge_refuted.
Print Assumptions C32_round_trip.
Print Assumptions C32_round_trip_down.
