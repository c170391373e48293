(** * C91: what a larger trade costs. *)
From Coq Require Import ZArith QArith Qround List Bool Lia ZifyBool Lqa.
From Verif Require Import Base MathModel CurveModel FeeModel ConfigModel PoolModel TxModel
  SystemModel Fixtures Spec Lib CurveProofs CurveLoops Potential CalcProofs ConfigProofs FeeProofs
  SwapProofs InvProofs InvOps InvReach FixturesReach PropSwap Effects Frame Bounds PropSafe PropVol
  PropSched PropLimiter PropRate LimInv PropPart
  TxTree PropTx Live PropSell PropBuy SdkModel PropSdk Steps Walks PropTrade PropWait PropCharge.
Import ListNotations.
Open Scope Z_scope.
#[local] Arguments Z.pow : simpl never.
#[local] Arguments Z.testbit : simpl never.

(** ** Specification *)

(** The fee of a trade, from what can be observed: what the trader paid and did not reach the
    reserve, plus what left the reserve and did not reach the trader. *)
Definition fee_charged (w w' : world) (a : swap_args) (paid got : Z) : Z :=
  (paid - (reserve (token_in (sa_dir a)) (w_pool w') - reserve (token_in (sa_dir a)) (w_pool w)))
  + ((reserve (token_out (sa_dir a)) (w_pool w) - reserve (token_out (sa_dir a)) (w_pool w')) - got).

(** ** Proofs *)
Lemma swap_fee w a w' : reachable w -> exec w (OSwap a) = Ok w' ->
  cfg_ok (w_config w) /\ fees_ok (c_fees (w_config w)) /\ curve_ok (w_config w) (curve_points (w_config w))
  /\ c_start (w_config w) <= p_price (w_pool w) <= c_mig_price (w_config w)
  /\ 0 <= sa_amount0 a
  /\ exists r fm vt, fm_on_input fm = on_input w (sa_dir a)
    /\ vt_va vt = vt_va (p_tracker (w_pool w))
    /\ process_swap (w_config w) (set_tracker (w_pool w) vt) (sa_mode a) (sa_amount0 a) (sa_amount1 a) fm
         (sa_dir a) (at_point w a) (entitled w a) = Ok r
    /\ w_log w' = w_log w ++ swap_movements a (sr_included r) (sr_output r) (ftok fm) (sr_referral r)
    /\ fee_charged w w' a (sr_included r) (sr_output r) = sr_trading r + sr_protocol r + sr_referral r.
Proof.
  intros R H. destruct (reach_swap _ _ _ R H) as (K & F & HA & _ & r & fm & num & fee & gross
    & pf & cf & cur & p1 & E & PRE & PS).
  pose proof (reachable_inv _ R) as I.
  repeat (split; [first [assumption|apply (ok_curve _ K)|apply (iv_price _ I)]|]).
  destruct (pre_swap_tracker _ _ _ _ PRE) as (vt & -> & PT).
  exists r, fm, vt. split; [exact (fee_mode_on_input _ _ _ _ (se_fm _ _ _ _ _ _ _ _ _ _ _ E))|].
  split; [exact (pre_keeps_va _ _ _ _ PT)|]. split.
  - unfold at_point, entitled. pose proof (se_point _ _ _ _ _ _ _ _ _ _ _ E) as CP.
    rewrite current_point_of in CP by exact K. apply Ok_inj in CP. rewrite CP. exact PS.
  - split; [exact (log_movements _ _ _ _ _ _ _ _ _ _ _ E)|].
    pose proof (se_facts _ _ _ _ _ _ _ _ _ _ _ E) as SF.
    pose proof (parts_sum _ _ _ _ _ (sf_fee_nonneg _ _ _ _ _ _ _ _ SF) (sf_parts _ _ _ _ _ _ _ _ SF)) as SUM.
    pose proof (sf_in _ _ _ _ _ _ _ _ SF) as SI. pose proof (sf_out _ _ _ _ _ _ _ _ SF) as SO.
    destruct (effect_applied _ _ _ _ _ _ _ _ _ _ _ E) as (p2 & AP & SM).
    pose proof (ap_base _ _ _ _ _ _ _ _ _ AP) as AB. pose proof (ap_quote _ _ _ _ _ _ _ _ _ AP) as AQ.
    assert (B2 : p_base (w_pool w') = p_base p2) by apply SM.
    assert (Q2 : p_quote (w_pool w') = p_quote p2) by apply SM.
    unfold fee_charged. destruct (sa_dir a); cbn [token_in token_out reserve fi_db fi_dq] in *;
    destruct (fm_on_input fm); lia.
Qed.

(** An exact-input swap: the amount its fee is computed on. *)
Lemma exact_in_fee w a w' : reachable w -> sa_mode a = 0 -> exec w (OSwap a) = Ok w' ->
  exists num net gross left got ft rf price,
    num_included (w_config w) (w_pool w) (at_point w a) (sa_amount0 a) (sa_dir a) (entitled w a) = Ok num
    /\ 0 <= num <= MAX_FEE_NUMERATOR /\ 0 <= net /\ 0 <= gross
    /\ net = (if on_input w (sa_dir a) then sa_amount0 a - cdiv (sa_amount0 a * num) FEE_DENOMINATOR
              else sa_amount0 a)
    /\ walk w (sa_dir a) net price left gross
    /\ w_log w' = w_log w ++ swap_movements a (sa_amount0 a) got ft rf
    /\ fee_charged w w' a (sa_amount0 a) got
       = cdiv ((if on_input w (sa_dir a) then sa_amount0 a else gross) * num) FEE_DENOMINATOR.
Proof.
  intros R M H. destruct (swap_fee _ _ _ R H) as (K & F & CK & P & A0 & r & fm & vt & OI & VA & PS & LG & FC).
  unfold process_swap in PS. rewrite M in PS. simpl (0 =? 0) in PS. cbn iota in PS.
  apply bind_ok in PS. destruct PS as (r' & S & PS). apply bind_ok in PS. destruct PS as (u & _ & PS).
  apply Ok_inj in PS. subst r'. rewrite exact_in_va in S by exact VA.
  unfold swap_exact_in in S. apply bind_ok in S. destruct S as (num & N & S).
  apply bind_ok in S. destruct S as (f & FF & S). apply bind_ok in S. destruct S as (s & FI & S).
  apply bind_ok in S. destruct S as (u2 & _ & S). apply bind_ok in S. destruct S as (g & G & S).
  apply Ok_inj in S. rewrite OI in *.
  pose proof (num_included_bounds _ _ _ _ _ _ _ F A0 N) as NB.
  pose proof (fee_le_gross (sa_amount0 a) num A0 NB) as FB.
  assert (NET : foa_amount f = (if on_input w (sa_dir a) then sa_amount0 a - cdiv (sa_amount0 a * num) FEE_DENOMINATOR
              else sa_amount0 a)
     /\ (on_input w (sa_dir a) = true ->
         foa_trading f + foa_protocol f + foa_referral f = cdiv (sa_amount0 a * num) FEE_DENOMINATOR)).
  { destruct (on_input w (sa_dir a)).
    - apply fee_on_amount_ok in FF. destruct FF as (fee & -> & _ & FA & PA). split; [exact FA|]. intros _.
      apply parts_sum in PA; [lia|lia].
    - apply Ok_inj in FF. subst f. split; [reflexivity|discriminate]. }
  destruct NET as (NET & SUMI).
  assert (N0 : 0 <= foa_amount f) by (rewrite NET; destruct (on_input w (sa_dir a)); lia).
  pose proof (fi_moves _ _ _ _ _ _ CK P N0 FI) as (_ & _ & _ & _ & O0).
  assert (SUMO : on_input w (sa_dir a) = false ->
     foa_trading g + foa_protocol g + foa_referral g = cdiv (fi_out s * num) FEE_DENOMINATOR).
  { intros OF. rewrite OF in G. apply fee_on_amount_ok in G. destruct G as (fee & -> & _ & _ & PA).
    pose proof (fee_le_gross (fi_out s) num O0 NB). apply parts_sum in PA; lia. }
  destruct (fi_takes _ _ _ _ _ CK P N0 FI) as (left & _ & T).
  exists num, (foa_amount f), (fi_out s), left, (sr_output r), (ftok fm), (sr_referral r), (fi_price s).
  subst r. cbn [sr_included sr_output sr_price sr_referral sr_trading sr_protocol] in *.
  repeat (split; [first [assumption|lia]|]).
  rewrite FC. destruct (on_input w (sa_dir a)); [|apply SUMO; reflexivity].
  apply Ok_inj in G. subst g. cbn [foa_trading foa_protocol foa_referral]. apply SUMI. reflexivity.
Qed.

(** An exact-output swap. *)
Lemma exact_out_fee w a w' : reachable w -> sa_mode a = 2 -> exec w (OSwap a) = Ok w' ->
  exists num paid ft rf x,
    num_excluded (w_config w) (w_pool w) (at_point w a) x (sa_dir a) (entitled w a) = Ok num
    /\ 0 <= num <= MAX_FEE_NUMERATOR /\ 0 <= paid
    /\ w_log w' = w_log w ++ swap_movements a paid (sa_amount0 a) ft rf
    /\ fee_charged w w' a paid (sa_amount0 a)
       = cdiv ((if on_input w (sa_dir a) then paid
                else cdiv (sa_amount0 a * FEE_DENOMINATOR) (FEE_DENOMINATOR - num)) * num) FEE_DENOMINATOR.
Proof.
  intros R M H. destruct (swap_fee _ _ _ R H) as (K & F & CK & P & A0 & r & fm & vt & OI & VA & PS & LG & FC).
  unfold process_swap in PS. rewrite M in PS. simpl (2 =? 0) in PS. simpl (2 =? 1) in PS. simpl (2 =? 2) in PS. cbn iota in PS.
  apply bind_ok in PS. destruct PS as (r' & S & PS). apply bind_ok in PS. destruct PS as (u & _ & PS).
  apply Ok_inj in PS. subst r'. rewrite exact_out_va in S by exact VA.
  unfold swap_exact_out in S. rewrite OI in *.
  assert (DP : 0 < FEE_DENOMINATOR) by reflexivity.
  destruct (on_input w (sa_dir a)).
  - cbn [bind] in S. apply bind_ok in S. destruct S as (s & FO & S).
    apply bind_ok in S. destruct S as (u2 & U2 & S). apply require_ok in U2.
    apply bind_ok in S. destruct S as ([[[incl tr] pr] rf] & Q & S). apply Ok_inj in S.
    apply bind_ok in Q. destruct Q as (num & N & Q). apply bind_ok in Q. destruct Q as ([i fee] & G & Q).
    apply bind_ok in Q. destruct Q as ([[t p] q] & SP & Q). injection Q as <- <- <- <-.
    pose proof (num_excluded_bounds _ _ _ _ _ _ _ F N) as NB.
    destruct (fo_moves _ _ _ _ _ _ CK P A0 FO ltac:(lia)) as (_ & P2 & _ & I0).
    apply included_fee_ok in G; [|lia|lia]. destruct G as (_ & GE & F0 & GF & _).
    apply split_fees_ok in SP. apply parts_sum in SP; [|exact F0].
    exists num, i, (ftok fm), (sr_referral r), (fo_in s).
    subst r. cbn [sr_included sr_output sr_price sr_referral sr_trading sr_protocol] in *.
    repeat (split; [first [assumption|lia]|]). rewrite FC. lia.
  - apply bind_ok in S. destruct S as ([[[gr tr] pr] rf] & Q & S).
    apply bind_ok in Q. destruct Q as (num & N & Q). apply bind_ok in Q. destruct Q as ([i fee] & G & Q).
    apply bind_ok in Q. destruct Q as ([[t p] q] & SP & Q). injection Q as <- <- <- <-.
    pose proof (num_excluded_bounds _ _ _ _ _ _ _ F N) as NB.
    apply included_fee_ok in G; [|lia|lia]. destruct G as (_ & GE & F0 & GF & GI & _).
    apply split_fees_ok in SP. apply parts_sum in SP; [|exact F0].
    apply bind_ok in S. destruct S as (s & FO & S).
    apply bind_ok in S. destruct S as (u2 & U2 & S). apply require_ok in U2. cbn [bind] in S. apply Ok_inj in S.
    assert (GI0 : 0 <= i) by lia.
    destruct (fo_moves _ _ _ _ _ _ CK P GI0 FO ltac:(lia)) as (_ & P2 & _ & I0).
    exists num, (fo_in s), (ftok fm), (sr_referral r), (sa_amount0 a).
    subst r. cbn [sr_included sr_output sr_price sr_referral sr_trading sr_protocol] in *.
    repeat (split; [first [assumption|lia]|]). rewrite FC, <- GI. lia.
Qed.

(** ** C91 *)

(** Of two requests of the same kind, exact-input or exact-output, that the same state would accept on
    the same terms, at a rate that does not depend on the amount, the larger one is charged at least
    as high a fee. *)
Theorem C91_larger_fee : forall w a b wa wb paid_a got_a ft_a ref_a paid_b got_b ft_b ref_b,
  reachable w -> same_terms w a b -> flat_rate w a ->
  sa_mode a = 0 /\ sa_mode b = 0 \/ sa_mode a = 2 /\ sa_mode b = 2 -> sa_amount0 a <= sa_amount0 b ->
  exec w (OSwap a) = Ok wa -> exec w (OSwap b) = Ok wb ->
  w_log wa = w_log w ++ swap_movements a paid_a got_a ft_a ref_a ->
  w_log wb = w_log w ++ swap_movements b paid_b got_b ft_b ref_b ->
  0 <= fee_charged w wa a paid_a got_a <= fee_charged w wb b paid_b got_b.
Proof.
  intros w a b wa wb pa ga fta ra pb gb ftb rb R ST FR MM LE EA EB LA LB.
  destruct (swap_setting _ _ _ R EA) as (_ & _ & CK & P & A0 & _).
  assert (FM : forall x y n, 0 <= x <= y -> 0 <= n -> 0 <= cdiv (x * n) FEE_DENOMINATOR <= cdiv (y * n) FEE_DENOMINATOR).
  { intros x y n X N. split; [apply cdiv_nonneg; [apply Z.mul_nonneg_nonneg; lia|reflexivity]|].
    apply cdiv_mono; [reflexivity|]. apply Z.mul_le_mono_nonneg_r; lia. }
  destruct MM as [(MA & MB)|(MA & MB)].
  - destruct (exact_in_fee _ _ _ R MA EA) as (na & xa & grA & la & ga' & fta' & ra' & pra & NA & NBa & X0 & G0 & XA & WA & LGA & FA).
    destruct (exact_in_fee _ _ _ R MB EB) as (nb & xb & grB & lb & gb' & ftb' & rb' & prb & NB & _ & _ & _ & XB & WB & LGB & FB).
    rewrite LA in LGA. apply movements_inj in LGA. destruct LGA as (-> & ->).
    rewrite LB in LGB. apply movements_inj in LGB. destruct LGB as (-> & ->).
    destruct (flat_same _ _ _ (sa_amount0 a) (sa_amount0 b) ST FR) as (NE & _). rewrite NA, NB in NE.
    apply Ok_inj in NE. subst nb. rewrite FA, FB.
    destruct ST as (D & _ & _). rewrite <- D in *.
    destruct (on_input w (sa_dir a)); apply FM; try lia. subst xa xb.
    destruct (takes_mono _ _ _ _ _ _ _ _ _ _ _ _ (walk_ok _ (sa_dir a) CK) (walk_low_pos _ (sa_dir a) _ CK P) X0 LE WA WB) as (_ & O1 & _).
    lia.
  - destruct (exact_out_fee _ _ _ R MA EA) as (na & pa' & fta' & ra' & xa & NA & NBa & PA0 & LGA & FA).
    destruct (exact_out_fee _ _ _ R MB EB) as (nb & pb' & ftb' & rb' & xb & NB & _ & PB0 & LGB & FB).
    rewrite LA in LGA. apply movements_inj in LGA. destruct LGA as (-> & ->).
    rewrite LB in LGB. apply movements_inj in LGB. destruct LGB as (-> & ->).
    destruct (C54_more_out_costs_more _ _ _ _ _ _ _ _ _ _ _ R ST FR MA MB LE EA EB LA LB) as (PP & _).
    destruct (flat_same _ _ _ 0 xa (conj (eq_refl (sa_dir a)) (conj eq_refl (iff_refl _)) : same_terms w a a) FR) as (_ & N1).
    destruct (flat_same _ _ _ 0 xb ST FR) as (_ & N2).
    rewrite NA in N1. rewrite NB, N1 in N2. apply Ok_inj in N2. subst nb. rewrite FA, FB.
    destruct ST as (D & _ & _). rewrite <- D in *.
    destruct (on_input w (sa_dir a)); apply FM; try lia.
    apply gross_mono; lia.
Qed.

(** *** Under the rate limiter *)
Lemma progressive_step c i x0 n k : 0 <= c <= 990000000 -> 0 <= i -> 0 < x0 ->
  progressive c i x0 n <= progressive c i x0 (n + k) <= progressive c i x0 n + 990000000 * Z.of_nat k.
Proof.
  intros C I X. induction k as [|k IH].
  - rewrite Nat.add_0_r. lia.
  - rewrite Nat.add_succ_r. cbn [progressive]. unfold marginal.
    assert (0 <= Z.of_nat (n + k) / x0) by (apply Z.div_pos; lia).
    assert (0 <= i * (Z.of_nat (n + k) / x0)) by (apply Z.mul_nonneg_nonneg; lia). lia.
Qed.

(** The exact progressive sum of the units of a buy, in billionths. *)
Definition exact_sum (b : base_fee) (x : Z) : Z :=
  progressive (bf_cliff b) (bf_first b * 100000) (bf_third b) (Z.to_nat x).

Lemma exact_sum_step b x y : limited b -> 0 <= x <= y ->
  exact_sum b x <= exact_sum b y <= exact_sum b x + 990000000 * (y - x).
Proof.
  intros (C & F & _ & T) X. unfold exact_sum.
  pose proof (progressive_step (bf_cliff b) (bf_first b * 100000) (bf_third b) (Z.to_nat x) (Z.to_nat (y - x))
                ltac:(lia) ltac:(lia) ltac:(lia)) as S.
  replace (Z.to_nat x + Z.to_nat (y - x))%nat with (Z.to_nat y) in S by lia.
  rewrite Z2Nat.id in S by lia. exact S.
Qed.

(** The rate of an exact-input buy under the limiter. *)
Lemma limiter_rate w a w' : reachable w -> sa_mode a = 0 -> exec w (OSwap a) = Ok w' ->
  limiter_active (w_config w) (p_activation (w_pool w)) (at_point w a) (sa_dir a) -> ~ bundle_entitled w a ->
  let b := pf_base (c_fees (w_config w)) in
  limited b /\ 1 <= sa_amount0 a /\ 0 <= surcharge w
  /\ exists n fee, exact_sum b (sa_amount0 a) <= n * sa_amount0 a <= exact_sum b (sa_amount0 a) + sa_amount0 a + 1000000000
    /\ fee = cdiv (sa_amount0 a * Z.min 990000000 (n + surcharge w)) 1000000000
    /\ p_quote (w_pool w') = p_quote (w_pool w) + (sa_amount0 a - fee)
    /\ exists got ft rf, w_log w' = w_log w ++ swap_movements a (sa_amount0 a) got ft rf
       /\ fee_charged w w' a (sa_amount0 a) got = fee.
Proof.
  intros R MO H LA NB b.
  pose proof (iv_created _ (reachable_inv _ R)) as CR.
  destruct (exact_in_fee _ _ _ R MO H) as (num & net & gross & left & got & ft & rf & pr & N & NBd & N0 & G0 & NE & _ & LG & FC).
  destruct LA as (M & NZ & D & W). fold b in M, NZ, W.
  pose proof (limiter_on_input (w_config w) CR M) as CM.
  assert (OI : on_input w (sa_dir a) = true) by (unfold on_input; rewrite CM, D; reflexivity).
  rewrite OI in *.
  destruct (limiter_cases (w_config w) CR M) as (CL & [Z|L]); [contradiction|]. fold b in L, CL.
  rewrite <- eligible_iff in NB. fold (entitled w a) in NB. destruct (entitled w a); [contradiction NB; reflexivity|].
  unfold num_included, total_num_included in N. apply bind_ok in N. destruct N as (bn & B & T).
  assert (A1 : 1 <= sa_amount0 a).
  { unfold exec in H. apply bind_ok in H. destruct H as (u & _ & H). unfold do_swap, swap_full in H.
    apply bind_ok in H. destruct H as (x & X & _). apply bind_ok in X. destruct X as (u2 & X & _).
    apply require_ok in X. lia. }
  fold b in B. unfold base_num_included in B. rewrite M in B.
  change ((2 =? 0) || (2 =? 1)) with false in B. change (2 =? 2) with true in B. cbv iota in B.
  apply bind_ok in B. destruct B as (ap & AP & B). apply rl_applied_inv in AP; auto. rewrite D in AP.
  simpl in AP. replace (at_point w a <=? p_activation (w_pool w) + bf_second b) with true in AP by lia.
  subst ap. destruct (created_fees_ok (w_config w) CR) as [TB TD _ _ _].
  destruct (rl_included_inv b (sa_amount0 a) bn L ltac:(lia) B) as (E & GE).
  apply total_num_bounds in T; [|exact TD|lia]. destruct T as (v & VE & -> & V0 & _).
  apply (variable_is_surcharge w _ v R) in VE; [|reflexivity]. subst v.
  split; [exact L|]. split; [exact A1|]. split; [exact V0|].
  exists bn, (sa_amount0 a - net). unfold MAX_FEE_NUMERATOR, FEE_DENOMINATOR in *. split.
  { unfold exact_sum. pose proof L as (C & F & _ & X).
    set (n := sa_amount0 a) in *.
    set (S := progressive (bf_cliff b) (bf_first b * 100000) (bf_third b) (Z.to_nat n)) in *.
    assert (PE : progressive_fee b n = cdiv S 1000000000) by reflexivity.
    destruct (n <=? bf_third b) eqn:SM.
    - assert (TT : S = bf_cliff b * n).
      { unfold S. rewrite progressive_small by lia. rewrite Z2Nat.id by lia. reflexivity. }
      subst bn. lia.
    - assert (S <= progressive_fee b n * 1000000000) by (rewrite PE; apply cdiv_ub; lia).
      assert (progressive_fee b n * 1000000000 <= bn * n) by (rewrite E; apply cdiv_ub; lia).
      assert (U : cdiv S 1000000000 - 1 < cdiv S 1000000000) by lia. apply cdiv_gt in U; [|lia].
      rewrite <- PE in U.
      assert (K : bn - 1 < bn) by lia. rewrite E in K at 2. apply cdiv_gt in K; [|lia].
      clearbody S n. lia. }
  split; [lia|].
  assert (OUT : p_base (w_pool w) - p_base (w_pool w') = got).
  { destruct (swap_observed_num _ _ _ R H) as (pd & g2 & fe & _ & _ & r2 & _ & _ & _ & _ & _ & _ & _ & LG2 & _ & OUT & _).
    rewrite CM, D in OUT. change (0 =? 0) with true in OUT. cbv iota in OUT. cbn [token_out reserve on] in OUT.
    rewrite LG in LG2. apply movements_inj in LG2. lia. }
  unfold fee_charged in FC. rewrite D in FC. cbn [token_in token_out reserve] in FC.
  split; [lia|]. exists got, ft, rf. split; [exact LG|].
  unfold fee_charged. rewrite D. cbn [token_in token_out reserve]. lia.
Qed.

(** Under the rate limiter the rate is rounded to billionths and the schedule to whole units, so that a
    larger buy can be charged less, but not by more than one unit and a billionth of the smaller buy. *)
Theorem C91_limiter_fee : forall w a b wa wb paid_a got_a ft_a ref_a paid_b got_b ft_b ref_b,
  reachable w -> same_terms w a b -> ~ bundle_entitled w a ->
  limiter_active (w_config w) (p_activation (w_pool w)) (at_point w a) (sa_dir a) ->
  sa_mode a = 0 -> sa_mode b = 0 -> sa_amount0 a <= sa_amount0 b ->
  exec w (OSwap a) = Ok wa -> exec w (OSwap b) = Ok wb ->
  w_log wa = w_log w ++ swap_movements a paid_a got_a ft_a ref_a ->
  w_log wb = w_log w ++ swap_movements b paid_b got_b ft_b ref_b ->
  fee_charged w wa a paid_a got_a <= fee_charged w wb b paid_b got_b + ceil_div (sa_amount0 a) 1000000000 + 1.
Proof.
  intros w a b wa wb pa ga fta ra pb gb ftb rb R ST NB LA MA MB LE EA EB LGA LGB.
  assert (NB2 : ~ bundle_entitled w b) by (destruct ST as (_ & _ & E); tauto).
  assert (LA2 : limiter_active (w_config w) (p_activation (w_pool w)) (at_point w b) (sa_dir b))
    by (destruct ST as (<- & <- & _); exact LA).
  destruct (limiter_rate _ _ _ R MA EA LA NB) as (L & A1 & V & na & fa & NA & FA & _ & ga' & fta' & ra' & GA & CA).
  destruct (limiter_rate _ _ _ R MB EB LA2 NB2) as (_ & B1 & _ & nb & fb & NBb & FB & _ & gb' & ftb' & rb' & GB & CB).
  rewrite LGA in GA. apply movements_inj in GA. destruct GA as (-> & ->).
  rewrite LGB in GB. apply movements_inj in GB. destruct GB as (-> & ->). rewrite CA, CB. clear CA CB.
  pose proof (exact_sum_step _ _ _ L (conj (Z.le_trans 0 1 _ Z.le_0_1 A1) LE)) as (S1 & _).
  rewrite ceil_div_cdiv by reflexivity.
  set (x := sa_amount0 a) in *. set (y := sa_amount0 b) in *. set (v := surcharge w) in *.
  set (sx := exact_sum _ x) in *. set (sy := exact_sum _ y) in *. clearbody x y v sx sy.
  assert (U1 : x <= cdiv x 1000000000 * 1000000000) by (apply cdiv_ub; lia).
  set (q := cdiv x 1000000000) in *. clearbody q.
  assert (U2 : y * Z.min 990000000 (nb + v) <= fb * 1000000000) by (subst fb; apply cdiv_ub; lia).
  clear FB. subst fa. apply cdiv_le; [lia|].
  assert (VX : v * x <= v * y) by (apply Z.mul_le_mono_nonneg_l; lia).
  destruct (Z.min_spec 990000000 (nb + v)) as [(_ & Q)|(_ & Q)]; rewrite Q in U2; clear Q.
  - assert (x * Z.min 990000000 (na + v) <= x * 990000000) by (apply Z.mul_le_mono_nonneg_l; lia). lia.
  - assert (x * Z.min 990000000 (na + v) <= x * (na + v)) by (apply Z.mul_le_mono_nonneg_l; lia). lia.
Qed.

(** What reaches the curve: with a surcharge of at most 1%, of two buys under the limiter the larger one
    brings at least as much quote to the reserve, up to one unit and a billionth of its amount. *)
Theorem C91_limiter_net : forall w a b wa wb,
  reachable w -> same_terms w a b -> ~ bundle_entitled w a ->
  limiter_active (w_config w) (p_activation (w_pool w)) (at_point w a) (sa_dir a) ->
  surcharge w <= 10000000 ->
  sa_mode a = 0 -> sa_mode b = 0 -> sa_amount0 a <= sa_amount0 b ->
  exec w (OSwap a) = Ok wa -> exec w (OSwap b) = Ok wb ->
  p_quote (w_pool wa) <= p_quote (w_pool wb) + ceil_div (sa_amount0 b) 1000000000 + 1.
Proof.
  intros w a b wa wb R ST NB LA SC MA MB LE EA EB.
  assert (NB2 : ~ bundle_entitled w b) by (destruct ST as (_ & _ & E); tauto).
  assert (LA2 : limiter_active (w_config w) (p_activation (w_pool w)) (at_point w b) (sa_dir b))
    by (destruct ST as (<- & <- & _); exact LA).
  destruct (limiter_rate _ _ _ R MA EA LA NB) as (L & A1 & V & na & fa & NA & FA & QA & _).
  destruct (limiter_rate _ _ _ R MB EB LA2 NB2) as (_ & B1 & _ & nb & fb & NBb & FB & QB & _).
  pose proof (exact_sum_step _ _ _ L (conj (Z.le_trans 0 1 _ Z.le_0_1 A1) LE)) as (_ & S2).
  rewrite QA, QB, ceil_div_cdiv by reflexivity. clear QA QB.
  set (x := sa_amount0 a) in *. set (y := sa_amount0 b) in *. set (v := surcharge w) in *.
  set (sx := exact_sum _ x) in *. set (sy := exact_sum _ y) in *. clearbody x y v sx sy.
  assert (U1 : y <= cdiv y 1000000000 * 1000000000) by (apply cdiv_ub; lia).
  set (q := cdiv y 1000000000) in *. clearbody q.
  assert (U2 : x * Z.min 990000000 (na + v) <= fa * 1000000000) by (subst fa; apply cdiv_ub; lia).
  clear FA. assert (fb <= fa + (y - x) + q + 1); [|lia]. subst fb. apply cdiv_le; [lia|].
  assert (VX : v * (y - x) <= 10000000 * (y - x)) by (apply Z.mul_le_mono_nonneg_r; lia).
  destruct (Z.min_spec 990000000 (na + v)) as [(_ & Q)|(_ & Q)]; rewrite Q in U2; clear Q.
  - assert (y * Z.min 990000000 (nb + v) <= y * 990000000) by (apply Z.mul_le_mono_nonneg_l; lia). lia.
  - assert (y * Z.min 990000000 (nb + v) <= y * (nb + v)) by (apply Z.mul_le_mono_nonneg_l; lia). lia.
Qed.

(** ** A buy under the limiter with a dynamic fee *)

(** A rate limiter (1% for the first 10 SOL, 49% more for each further 10 SOL) together with a dynamic fee. *)
Definition fx_paramsG : config_params :=
  {| q_base_fee := mkBaseFee 10000000 4900 600 10000000000 2;
     q_dynamic_fee := Some (mkDynFee 0 14460000 143000 1 10 120 5000 1844674407370955);
     q_collect_fee_mode := 0; q_migration_option := 1; q_activation_type := 1;
     q_token_type := 1; q_token_decimal := 6;
     q_partner_liq_pct := 50; q_partner_perm_pct := 0; q_creator_liq_pct := 0;
     q_creator_perm_pct := 50;
     q_threshold := 100000000000; q_start := Q64_ / 32;
     q_vesting := mkLockedVesting 0 0 0 0 0;
     q_migration_fee_option := 2; q_token_supply := None;
     q_creator_trading_fee_pct := 0; q_token_update_authority := 0;
     q_migration_fee_pct := 0; q_creator_migration_fee_pct := 0;
     q_migrated_collect_mode := 0; q_migrated_dynamic_fee := 0; q_migrated_pool_fee_bps := 0;
     q_pool_creation_fee := 0;
     q_partner_vesting := no_vest; q_creator_vesting := no_vest;
     q_migrated_base_fee_mode := 0; q_mc_number_of_period := 0; q_mc_price_step := 0;
     q_mc_expiration := 0; q_mc_reduction := 0; q_first_swap_min_fee := false;
     q_compounding_fee_bps := 0; q_curve := fx_curve |}.
Definition cfgG : config := Eval vm_compute in get dummy_config (fx_config fx_paramsG).
Definition wG : world := Eval vm_compute in get dummy_world (fx_world cfgG 1).
Lemma reachG ops : reachable (run wG ops).
Proof.
  exists wG, ops. split; [|reflexivity]. exists cfgG, 77, 44, 55, 1, 1000, 1700000000, [99], [].
  split.
  - exists fx_paramsG, true, true, 1700000000, 11, 22, 33. split; [typed|].
    split; [unfold u64ok; vm_compute; split; congruence|vm_compute; reflexivity].
  - split; [unfold u64ok; vm_compute; split; congruence|].
    split; [unfold u64ok; vm_compute; split; congruence|vm_compute; reflexivity].
Qed.
Definition histG : list op := [swp 500 None QuoteToBase 0 10000000000 0 1700000000 plain_view].

Lemma active_at w a : bf_mode (pf_base (c_fees (w_config w))) = 2 ->
  bf_third (pf_base (c_fees (w_config w))) <> 0 -> sa_dir a = QuoteToBase ->
  at_point w a <= p_activation (w_pool w) + bf_second (pf_base (c_fees (w_config w))) ->
  limiter_active (w_config w) (p_activation (w_pool w)) (at_point w a) (sa_dir a).
Proof. intros M T D W. split; [exact M|]. split; [intros (_ & _ & Z); contradiction|]. split; assumption. Qed.

(** With a larger surcharge the limiter can take more than the whole of each further unit: of two buys
    thirty seconds after another one, the one that pays 20 SOL more gets less than half the tokens. *)
Theorem C91_limiter_with_surcharge_refuted :
  exists w a b wa wb got_a got_b, reachable w /\ same_terms w a b /\ ~ bundle_entitled w a
    /\ limiter_active (w_config w) (p_activation (w_pool w)) (at_point w a) (sa_dir a)
    /\ surcharge w = 299000988 /\ sa_mode a = 0 /\ sa_mode b = 0
    /\ sa_amount0 a = 20000000000 /\ sa_amount0 b = 40000000000
    /\ exec w (OSwap a) = Ok wa /\ exec w (OSwap b) = Ok wb
    /\ w_log wa = w_log w ++ swap_movements a 20000000000 got_a TQuote 0
    /\ w_log wb = w_log w ++ swap_movements b 40000000000 got_b TQuote 0
    /\ got_a = 6580204161057 /\ got_b = 2460225432305
    /\ p_quote (w_pool wa) - p_quote (w_pool w) = 8919980240
    /\ p_quote (w_pool wb) - p_quote (w_pool w) = 3139960480.
Proof.
  exists (run wG histG), (req QuoteToBase 0 20000000000 0 1700000030), (req QuoteToBase 0 40000000000 0 1700000030).
  eexists _, _, 6580204161057, 2460225432305.
  split; [apply reachG|]. split; [apply req_terms|]. split; [apply req_not_entitled|].
  split; [apply active_at; [vm_compute; reflexivity|vm_compute; congruence|reflexivity|vm_compute; congruence]|].
  split; [vm_compute; reflexivity|]. do 4 (split; [reflexivity|]).
  do 4 (split; [vm_compute; reflexivity|]). do 2 (split; [reflexivity|]). split; vm_compute; reflexivity.
Qed.

(** ** The hypotheses of the theorems can be met *)
Example C91_case_flat : exists w a b wa wb ga gb,
  reachable w /\ same_terms w a b /\ flat_rate w a /\ sa_mode a = 0 /\ sa_mode b = 0
  /\ sa_amount0 a <= sa_amount0 b /\ exec w (OSwap a) = Ok wa /\ exec w (OSwap b) = Ok wb
  /\ w_log wa = w_log w ++ swap_movements a 20000000000 ga TQuote 0
  /\ w_log wb = w_log w ++ swap_movements b 40000000000 gb TQuote 0
  /\ 0 < fee_charged w wa a 20000000000 ga < fee_charged w wb b 40000000000 gb.
Proof.
  exists (run wF []), (req QuoteToBase 0 20000000000 0 1700000000), (req QuoteToBase 0 40000000000 0 1700000000).
  eexists _, _, _, _.
  split; [apply reachF|]. split; [apply req_terms|]. split; [apply flatF; reflexivity|].
  do 2 (split; [reflexivity|]). split; [vm_compute; congruence|].
  do 4 (split; [vm_compute; reflexivity|]). vm_compute. split; reflexivity.
Qed.

Example C91_case_limiter : exists w a b wa wb ga gb,
  reachable w /\ same_terms w a b /\ ~ bundle_entitled w a
  /\ limiter_active (w_config w) (p_activation (w_pool w)) (at_point w a) (sa_dir a)
  /\ surcharge w <= 10000000 /\ sa_mode a = 0 /\ sa_mode b = 0 /\ sa_amount0 a <= sa_amount0 b
  /\ exec w (OSwap a) = Ok wa /\ exec w (OSwap b) = Ok wb
  /\ w_log wa = w_log w ++ swap_movements a 80000590165 ga TQuote 0
  /\ w_log wb = w_log w ++ swap_movements b 80000590166 gb TQuote 0
  /\ p_quote (w_pool wb) < p_quote (w_pool wa).
Proof.
  exists (run wD []), (req QuoteToBase 0 80000590165 0 1700000000), (req QuoteToBase 0 80000590166 0 1700000000).
  eexists _, _, _, _.
  split; [apply reachD|]. split; [apply req_terms|]. split; [apply req_not_entitled|].
  split; [apply active_at; [vm_compute; reflexivity|vm_compute; congruence|reflexivity|vm_compute; congruence]|].
  split; [vm_compute; congruence|]. do 2 (split; [reflexivity|]). split; [vm_compute; congruence|].
  do 4 (split; [vm_compute; reflexivity|]). vm_compute. reflexivity.
Qed.

Print Assumptions C91_larger_fee.
Print Assumptions C91_limiter_fee.
Print Assumptions C91_limiter_net.
Print Assumptions C91_limiter_with_surcharge_refuted.
