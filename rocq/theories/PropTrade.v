(** * C54 - C56: comparing trades: larger amounts, exact-in against exact-out, splitting. *)
From Coq Require Import ZArith QArith List Bool Lia ZifyBool.
From Verif Require Import Base MathModel CurveModel FeeModel ConfigModel PoolModel TxModel
  SystemModel Fixtures Spec Lib CurveProofs CurveLoops Potential CalcProofs ConfigProofs FeeProofs
  SwapProofs InvProofs InvOps InvReach FixturesReach PropSwap Effects Frame Bounds PropSafe PropVol
  TxTree PropTx Live PropSell PropBuy SdkModel PropSdk Steps Walks.
Import ListNotations.
Open Scope Z_scope.
#[local] Arguments Z.pow : simpl never.
#[local] Arguments Z.testbit : simpl never.

(** ** One trade as a walk along the curve *)

(** Is the fee taken from what the trader pays? Otherwise from what they receive. *)
Definition on_input (w : world) (d : direction) : bool :=
  (c_collect_fee_mode (w_config w) =? 0)
  && match d with QuoteToBase => true | BaseToQuote => false end.

Lemma fee_mode_on_input w d ref fm : get_fee_mode (c_collect_fee_mode (w_config w)) d ref = Ok fm ->
  fm_on_input fm = on_input w d.
Proof.
  unfold get_fee_mode, on_input, collect_of. intros H. apply bind_ok in H. destruct H as (m & M & H).
  apply Ok_inj in H. subst fm.
  destruct (c_collect_fee_mode (w_config w) =? 0); [|destruct (c_collect_fee_mode (w_config w) =? 1); [|discriminate]];
  apply Ok_inj in M; subst m; destruct d; reflexivity.
Qed.

(** The pieces of a request that fix the fee rate. *)
Definition entitled (w : world) (a : swap_args) : bool :=
  first_swap_eligible (w_config w) (w_pool w) (w_key w) (is_some (sa_referral a)) (sa_view a).
Definition at_point (w : world) (a : swap_args) : Z := point_of (w_config w) (sa_slot a) (sa_now a).

(** Everything common to the three modes. *)
Lemma swap_setting w a w' : reachable w -> exec w (OSwap a) = Ok w' ->
  cfg_ok (w_config w) /\ fees_ok (c_fees (w_config w)) /\ curve_ok (w_config w) (curve_points (w_config w))
  /\ c_start (w_config w) <= p_price (w_pool w) <= c_mig_price (w_config w)
  /\ 0 <= sa_amount0 a
  /\ exists r fm vt, fm_on_input fm = on_input w (sa_dir a)
    /\ vt_va vt = vt_va (p_tracker (w_pool w))
    /\ process_swap (w_config w) (set_tracker (w_pool w) vt) (sa_mode a) (sa_amount0 a) (sa_amount1 a) fm
         (sa_dir a) (at_point w a) (entitled w a) = Ok r
    /\ w_log w' = w_log w ++ swap_movements a (sr_included r) (sr_output r) (ftok fm) (sr_referral r)
    /\ p_price (w_pool w') = sr_price r.
Proof.
  intros R H. destruct (reach_swap _ _ _ R H) as (K & F & HA & _ & r & fm & num & fee & gross
    & pf & cf & cur & p1 & E & PRE & PS).
  pose proof (reachable_inv _ R) as I.
  repeat (split; [first [assumption|apply (ok_curve _ K)|apply (iv_price _ I)]|]).
  destruct (pre_swap_tracker _ _ _ _ PRE) as (vt & -> & PT).
  exists r, fm, vt. split; [exact (fee_mode_on_input _ _ _ _ (se_fm _ _ _ _ _ _ _ _ _ _ _ E))|].
  split; [exact (pre_keeps_va _ _ _ _ PT)|]. split.
  - unfold at_point, entitled. pose proof (se_point _ _ _ _ _ _ _ _ _ _ _ E) as CP.
    rewrite current_point_of in CP by exact K. apply Ok_inj in CP. rewrite CP. exact PS.
  - split; [exact (log_movements _ _ _ _ _ _ _ _ _ _ _ E)|].
    destruct (effect_applied _ _ _ _ _ _ _ _ _ _ _ E) as (p2 & AP & SM).
    destruct SM as (SP & _). rewrite SP, (ap_price _ _ _ _ _ _ _ _ _ AP). reflexivity.
Qed.

Definition walk (w : world) (d : direction) (x price' left out : Z) : Prop :=
  takes (walk_stop (w_config w) d) (walk_segs (w_config w) d) (walk_pos d (p_price (w_pool w))) x
        (walk_pos d price') left out.

Lemma exact_in_view w a w' : reachable w -> sa_mode a = 0 -> exec w (OSwap a) = Ok w' ->
  exists num net gross left got ft rf,
    num_included (w_config w) (w_pool w) (at_point w a) (sa_amount0 a) (sa_dir a) (entitled w a) = Ok num
    /\ 0 <= num <= MAX_FEE_NUMERATOR /\ 0 <= net /\ 0 <= gross
    /\ net = (if on_input w (sa_dir a) then sa_amount0 a - cdiv (sa_amount0 a * num) FEE_DENOMINATOR
              else sa_amount0 a)
    /\ got = (if on_input w (sa_dir a) then gross else gross - cdiv (gross * num) FEE_DENOMINATOR)
    /\ walk w (sa_dir a) net (p_price (w_pool w')) left gross
    /\ w_log w' = w_log w ++ swap_movements a (sa_amount0 a) got ft rf.
Proof.
  intros R M H. destruct (swap_setting _ _ _ R H) as (K & F & CK & P & A0 & r & fm & vt & OI & VA & PS & LG & PR).
  unfold process_swap in PS. rewrite M in PS. simpl (0 =? 0) in PS. cbn iota in PS.
  apply bind_ok in PS. destruct PS as (r' & S & PS). apply bind_ok in PS. destruct PS as (u & _ & PS).
  apply Ok_inj in PS. subst r'. rewrite exact_in_va in S by exact VA.
  unfold swap_exact_in in S. apply bind_ok in S. destruct S as (num & N & S).
  apply bind_ok in S. destruct S as (f & FF & S). apply bind_ok in S. destruct S as (s & FI & S).
  apply bind_ok in S. destruct S as (u2 & _ & S). apply bind_ok in S. destruct S as (g & G & S).
  apply Ok_inj in S. rewrite OI in *.
  pose proof (num_included_bounds _ _ _ _ _ _ _ F A0 N) as NB.
  pose proof (fee_le_gross (sa_amount0 a) num A0 NB) as FB.
  assert (NET : foa_amount f = (if on_input w (sa_dir a) then sa_amount0 a - cdiv (sa_amount0 a * num) FEE_DENOMINATOR
              else sa_amount0 a)).
  { destruct (on_input w (sa_dir a)).
    - apply fee_on_amount_ok in FF. destruct FF as (fee & -> & _ & FA & _). exact FA.
    - apply Ok_inj in FF. subst f. reflexivity. }
  assert (N0 : 0 <= foa_amount f) by (rewrite NET; destruct (on_input w (sa_dir a)); lia).
  assert (GOT : foa_amount g = (if on_input w (sa_dir a) then fi_out s
                                else fi_out s - cdiv (fi_out s * num) FEE_DENOMINATOR)).
  { destruct (on_input w (sa_dir a)).
    - apply Ok_inj in G. subst g. reflexivity.
    - apply fee_on_amount_ok in G. destruct G as (fee & -> & _ & FA & _). exact FA. }
  pose proof (fi_moves _ _ _ _ _ _ CK P N0 FI) as (_ & _ & _ & _ & O0).
  destruct (fi_takes _ _ _ _ _ CK P N0 FI) as (left & _ & T).
  exists num, (foa_amount f), (fi_out s), left, (foa_amount g), (ftok fm), (sr_referral r).
  subst r. cbn [sr_included sr_output sr_price sr_referral] in *.
  repeat (split; [first [assumption|lia]|]). split; [unfold walk; rewrite PR; exact T|exact LG].
Qed.

Definition reach_out (w : world) (d : direction) (y price' inn : Z) : Prop :=
  gives (walk_segs (w_config w) d) (walk_pos d (p_price (w_pool w))) y (walk_pos d price') 0 inn.

Lemma exact_out_view w a w' : reachable w -> sa_mode a = 2 -> exec w (OSwap a) = Ok w' ->
  exists num gross inn paid ft rf x,
    num_excluded (w_config w) (w_pool w) (at_point w a) x (sa_dir a) (entitled w a) = Ok num
    /\ 0 <= num <= MAX_FEE_NUMERATOR /\ 0 <= gross /\ 0 <= inn
    /\ gross = (if on_input w (sa_dir a) then sa_amount0 a
                else cdiv (sa_amount0 a * FEE_DENOMINATOR) (FEE_DENOMINATOR - num))
    /\ paid = (if on_input w (sa_dir a) then cdiv (inn * FEE_DENOMINATOR) (FEE_DENOMINATOR - num) else inn)
    /\ reach_out w (sa_dir a) gross (p_price (w_pool w')) inn
    /\ walk_pos (sa_dir a) (p_price (w_pool w')) <= walk_stop (w_config w) (sa_dir a)
    /\ w_log w' = w_log w ++ swap_movements a paid (sa_amount0 a) ft rf.
Proof.
  intros R M H. destruct (swap_setting _ _ _ R H) as (K & F & CK & P & A0 & r & fm & vt & OI & VA & PS & LG & PR).
  unfold process_swap in PS. rewrite M in PS. simpl (2 =? 0) in PS. simpl (2 =? 1) in PS. simpl (2 =? 2) in PS. cbn iota in PS.
  apply bind_ok in PS. destruct PS as (r' & S & PS). apply bind_ok in PS. destruct PS as (u & _ & PS).
  apply Ok_inj in PS. subst r'. rewrite exact_out_va in S by exact VA.
  unfold swap_exact_out in S. rewrite OI in *.
  assert (DP : 0 < FEE_DENOMINATOR) by reflexivity.
  destruct (on_input w (sa_dir a)).
  - cbn [bind] in S. apply bind_ok in S. destruct S as (s & FO & S).
    apply bind_ok in S. destruct S as (u2 & U2 & S). apply require_ok in U2.
    apply bind_ok in S. destruct S as ([[[incl tr] pr] rf] & Q & S). apply Ok_inj in S.
    apply bind_ok in Q. destruct Q as (num & N & Q). apply bind_ok in Q. destruct Q as ([i fee] & G & Q).
    apply bind_ok in Q. destruct Q as ([[t p] q] & _ & Q). injection Q as <- <- <- <-.
    pose proof (num_excluded_bounds _ _ _ _ _ _ _ F N) as NB.
    destruct (fo_moves _ _ _ _ _ _ CK P A0 FO ltac:(lia)) as (_ & P2 & _ & I0).
    pose proof (fo_gives _ _ _ _ _ CK P A0 FO) as T.
    apply included_fee_ok in G; [|lia|lia]. destruct G as (_ & _ & _ & _ & GI & _).
    exists num, (sa_amount0 a), (fo_in s), i, (ftok fm), (sr_referral r), (fo_in s).
    subst r. cbn [sr_included sr_output sr_price sr_referral] in *.
    repeat (split; [first [assumption|lia|reflexivity]|]). unfold reach_out. rewrite PR. split; [exact T|]. split; [|exact LG].
    destruct (sa_dir a); simpl; lia.
  - apply bind_ok in S. destruct S as ([[[gr tr] pr] rf] & Q & S).
    apply bind_ok in Q. destruct Q as (num & N & Q). apply bind_ok in Q. destruct Q as ([i fee] & G & Q).
    apply bind_ok in Q. destruct Q as ([[t p] q] & _ & Q). injection Q as <- <- <- <-.
    pose proof (num_excluded_bounds _ _ _ _ _ _ _ F N) as NB.
    apply included_fee_ok in G; [|lia|lia]. destruct G as (_ & GE & GF & _ & GI & _).
    apply bind_ok in S. destruct S as (s & FO & S).
    apply bind_ok in S. destruct S as (u2 & U2 & S). apply require_ok in U2. cbn [bind] in S. apply Ok_inj in S.
    assert (GI0 : 0 <= i) by lia.
    destruct (fo_moves _ _ _ _ _ _ CK P GI0 FO ltac:(lia)) as (_ & P2 & _ & I0).
    pose proof (fo_gives _ _ _ _ _ CK P GI0 FO) as T.
    exists num, i, (fo_in s), (fo_in s), (ftok fm), (sr_referral r), (sa_amount0 a).
    subst r. cbn [sr_included sr_output sr_price sr_referral] in *.
    repeat (split; [first [assumption|lia|reflexivity]|]). unfold reach_out. rewrite PR. split; [exact T|]. split; [|exact LG].
    destruct (sa_dir a); simpl; lia.
Qed.

(** ** Comparing two requests *)

(** Two requests in the same state get the same terms: same direction, same time (by the clock
    the pool uses), and both or neither entitled to the first-swap fee. *)
Definition same_terms (w : world) (a b : swap_args) : Prop :=
  sa_dir a = sa_dir b /\ at_point w a = at_point w b /\ (bundle_entitled w a <-> bundle_entitled w b).

(** The fee rate does not depend on the amount: the rate limiter is not in force for this
    request, or the request is entitled to the fixed first-swap fee. *)
Definition flat_rate (w : world) (a : swap_args) : Prop :=
  bundle_entitled w a \/ ~ limiter_active (w_config w) (p_activation (w_pool w)) (at_point w a) (sa_dir a).

(** At least as far along: higher for buys, lower for sells. *)
Definition as_far (d : direction) (p p' : Z) : Prop :=
  match d with QuoteToBase => p <= p' | BaseToQuote => p' <= p end.

Lemma as_far_pos d p p' : walk_pos d p <= walk_pos d p' <-> as_far d p p'.
Proof. destruct d; simpl; lia. Qed.

Lemma entitled_same w a b : (bundle_entitled w a <-> bundle_entitled w b) -> entitled w a = entitled w b.
Proof.
  intros H. pose proof (eligible_iff w a) as E1. pose proof (eligible_iff w b) as E2.
  unfold entitled. apply Bool.eq_iff_eq_true. tauto.
Qed.

Lemma flat_same w a b x y : same_terms w a b -> flat_rate w a ->
  num_included (w_config w) (w_pool w) (at_point w a) x (sa_dir a) (entitled w a)
  = num_included (w_config w) (w_pool w) (at_point w b) y (sa_dir b) (entitled w b)
  /\ num_included (w_config w) (w_pool w) (at_point w a) x (sa_dir a) (entitled w a)
     = num_excluded (w_config w) (w_pool w) (at_point w b) y (sa_dir b) (entitled w b).
Proof.
  intros (D & P & E) [F|F].
  - pose proof F as F2. apply E in F2. apply eligible_iff in F. apply eligible_iff in F2.
    unfold entitled. rewrite F, F2. split; reflexivity.
  - rewrite <- D, <- P, <- (entitled_same _ _ _ E). split.
    + rewrite <- (excluded_same _ _ _ 0 x _ _ F), <- (excluded_same _ _ _ 0 y _ _ F). reflexivity.
    + symmetry. apply excluded_same, F.
Qed.

(** *** The fee on an amount *)
Lemma net_div x n : x - cdiv (x * n) FEE_DENOMINATOR = x * (FEE_DENOMINATOR - n) / FEE_DENOMINATOR.
Proof.
  unfold FEE_DENOMINATOR.
  pose proof (cdiv_ub (x * n) 1000000000 ltac:(lia)).
  assert (cdiv (x * n) 1000000000 - 1 < cdiv (x * n) 1000000000) as L by lia.
  apply cdiv_gt in L; [|lia]. apply Z.div_unique with (cdiv (x * n) 1000000000 * 1000000000 - x * n); lia.
Qed.

Lemma net_mono x y n : 0 <= n <= MAX_FEE_NUMERATOR -> x <= y ->
  x - cdiv (x * n) FEE_DENOMINATOR <= y - cdiv (y * n) FEE_DENOMINATOR.
Proof.
  intros N L. rewrite !net_div. apply Z.div_le_mono; [reflexivity|].
  apply Z.mul_le_mono_nonneg_r; [unfold MAX_FEE_NUMERATOR, FEE_DENOMINATOR in *; lia|exact L].
Qed.

Lemma net_add x y n :
  (x - cdiv (x * n) FEE_DENOMINATOR) + (y - cdiv (y * n) FEE_DENOMINATOR)
  <= (x + y) - cdiv ((x + y) * n) FEE_DENOMINATOR.
Proof.
  pose proof (cdiv_add_le (x * n) (y * n) FEE_DENOMINATOR eq_refl) as A.
  rewrite <- Z.mul_add_distr_r in A. lia.
Qed.

(** Grossing up and taking the fee. *)
Lemma gross_net y n : 0 <= n <= MAX_FEE_NUMERATOR ->
  y <= cdiv (y * FEE_DENOMINATOR) (FEE_DENOMINATOR - n)
       - cdiv (cdiv (y * FEE_DENOMINATOR) (FEE_DENOMINATOR - n) * n) FEE_DENOMINATOR.
Proof.
  intros N. rewrite net_div. apply Z.div_le_lower_bound; [reflexivity|].
  rewrite Z.mul_comm. apply cdiv_ub. unfold MAX_FEE_NUMERATOR, FEE_DENOMINATOR in *; lia.
Qed.

Lemma gross_le i x n : 0 <= n <= MAX_FEE_NUMERATOR ->
  i <= x - cdiv (x * n) FEE_DENOMINATOR -> cdiv (i * FEE_DENOMINATOR) (FEE_DENOMINATOR - n) <= x.
Proof.
  intros N L. rewrite net_div in L. apply cdiv_le; [unfold MAX_FEE_NUMERATOR, FEE_DENOMINATOR in *; lia|].
  pose proof (Z.mul_div_le (x * (FEE_DENOMINATOR - n)) FEE_DENOMINATOR eq_refl).
  unfold FEE_DENOMINATOR in *. lia.
Qed.

Lemma gross_lt y g n : 0 <= n <= MAX_FEE_NUMERATOR ->
  y < g - cdiv (g * n) FEE_DENOMINATOR -> cdiv (y * FEE_DENOMINATOR) (FEE_DENOMINATOR - n) < g.
Proof.
  intros N L. rewrite net_div in L.
  assert (cdiv (y * FEE_DENOMINATOR) (FEE_DENOMINATOR - n) <= g - 1); [|lia].
  apply cdiv_le; [unfold MAX_FEE_NUMERATOR, FEE_DENOMINATOR in *; lia|].
  pose proof (Z.mul_div_le (g * (FEE_DENOMINATOR - n)) FEE_DENOMINATOR eq_refl).
  unfold FEE_DENOMINATOR, MAX_FEE_NUMERATOR in *. lia.
Qed.

(** The movements of a swap determine the amounts paid and received. *)
Lemma movements_inj l a p g ft r p' g' ft' r' :
  l ++ swap_movements a p g ft r = l ++ swap_movements a p' g' ft' r' -> p = p' /\ g = g'.
Proof. intros H. apply app_inv_head in H. unfold swap_movements in H. injection H. auto. Qed.

(** ** C54: more in, more out

    Of two exact-input requests that the same pool state would both accept, on the same terms
    and at a rate that does not depend on the amount, the larger one receives at least as much
    and moves the price at least as far. *)
Theorem C54_more_in_more_out : forall w a b wa wb paid_a got_a ft_a ref_a paid_b got_b ft_b ref_b,
  reachable w -> same_terms w a b -> flat_rate w a ->
  sa_mode a = 0 -> sa_mode b = 0 -> sa_amount0 a <= sa_amount0 b ->
  exec w (OSwap a) = Ok wa -> exec w (OSwap b) = Ok wb ->
  w_log wa = w_log w ++ swap_movements a paid_a got_a ft_a ref_a ->
  w_log wb = w_log w ++ swap_movements b paid_b got_b ft_b ref_b ->
  got_a <= got_b /\ as_far (sa_dir a) (p_price (w_pool wa)) (p_price (w_pool wb)).
Proof.
  intros w a b wa wb pa ga fta ra pb gb ftb rb R ST FR MA MB LE EA EB LA LB.
  destruct (exact_in_view _ _ _ R MA EA) as (na & xa & grA & la & ga' & fta' & ra' & NA & NBa & X0 & G0 & XA & GA & WA & LGA).
  destruct (exact_in_view _ _ _ R MB EB) as (nb & xb & grB & lb & gb' & ftb' & rb' & NB & _ & _ & _ & XB & GB & WB & LGB).
  rewrite LA in LGA. apply movements_inj in LGA. destruct LGA as (_ & ->).
  rewrite LB in LGB. apply movements_inj in LGB. destruct LGB as (_ & ->).
  destruct (flat_same _ _ _ (sa_amount0 a) (sa_amount0 b) ST FR) as (NE & _). rewrite NA, NB in NE.
  apply Ok_inj in NE. subst nb.
  destruct (swap_setting _ _ _ R EA) as (_ & _ & CK & P & _).
  destruct ST as (D & _ & _). rewrite <- D in *.
  assert (XX : xa <= xb).
  { subst xa xb. destruct (on_input w (sa_dir a)); [apply net_mono; assumption|exact LE]. }
  destruct (takes_mono _ _ _ _ _ _ _ _ _ _ _ _ (walk_ok _ (sa_dir a) CK) (walk_low_pos _ (sa_dir a) _ CK P) X0 XX WA WB) as (P1 & O1 & _).
  split; [|apply as_far_pos; exact P1].
  subst ga' gb'. destruct (on_input w (sa_dir a)); [exact O1|apply net_mono; assumption].
Qed.

(** ** C55: exact-input and exact-output requests agree *)

(** Paying at least what an exact-output request would have charged buys at least what it would
    have delivered. *)
Theorem C55_in_covers_out : forall w o a wo wa paid ft_o ref_o paid_a got ft_a ref_a,
  reachable w -> same_terms w a o -> flat_rate w a ->
  sa_mode o = 2 -> sa_mode a = 0 ->
  exec w (OSwap o) = Ok wo -> exec w (OSwap a) = Ok wa ->
  w_log wo = w_log w ++ swap_movements o paid (sa_amount0 o) ft_o ref_o ->
  w_log wa = w_log w ++ swap_movements a paid_a got ft_a ref_a ->
  paid <= sa_amount0 a ->
  sa_amount0 o <= got /\ as_far (sa_dir a) (p_price (w_pool wo)) (p_price (w_pool wa)).
Proof.
  intros w o a wo wa paid fto ro pa got fta ra R ST FR MO MA EO EA LO LA LE.
  destruct (exact_in_view _ _ _ R MA EA) as (na & xa & grA & la & ga' & fta' & ra' & NA & NBa & X0 & G0 & XA & GA & WA & LGA).
  destruct (exact_out_view _ _ _ R MO EO) as (no & grO & inn & paid' & fto' & ro' & xo & NO & _ & GO0 & I0 & GO & PO & WO & ST2 & LGO).
  rewrite LA in LGA. apply movements_inj in LGA. destruct LGA as (_ & ->).
  rewrite LO in LGO. apply movements_inj in LGO. destruct LGO as (-> & _).
  destruct (flat_same _ _ _ (sa_amount0 a) xo ST FR) as (_ & NE). rewrite NA, NO in NE.
  apply Ok_inj in NE. subst no.
  destruct (swap_setting _ _ _ R EA) as (_ & _ & CK & P & _).
  destruct ST as (D & _ & _). rewrite <- D in *.
  assert (XX : inn <= xa).
  { subst xa. destruct (on_input w (sa_dir a)); [|lia].
    subst paid'. rewrite net_div. apply Z.div_le_lower_bound; [reflexivity|].
    rewrite (Z.mul_comm FEE_DENOMINATOR). apply cdiv_le in LE; [exact LE|].
    unfold MAX_FEE_NUMERATOR, FEE_DENOMINATOR in *; lia. }
  destruct (gives_takes _ _ _ _ _ _ _ _ _ _ _ (walk_ok _ (sa_dir a) CK) (walk_low_pos _ (sa_dir a) _ CK P) GO0 XX WO ST2 WA) as (Q1 & Y1).
  split; [|apply as_far_pos; lia].
  subst ga'. destruct (on_input w (sa_dir a)); [lia|].
  pose proof (gross_net (sa_amount0 o) na NBa) as GN. rewrite <- GO in GN.
  pose proof (net_mono grO grA na NBa ltac:(lia)). lia.
Qed.

(** Asking for less than an exact-input request delivers charges at most its input. *)
Theorem C55_out_within_in : forall w o a wo wa paid ft_o ref_o paid_a got ft_a ref_a,
  reachable w -> same_terms w a o -> flat_rate w a ->
  sa_mode o = 2 -> sa_mode a = 0 ->
  exec w (OSwap o) = Ok wo -> exec w (OSwap a) = Ok wa ->
  w_log wo = w_log w ++ swap_movements o paid (sa_amount0 o) ft_o ref_o ->
  w_log wa = w_log w ++ swap_movements a paid_a got ft_a ref_a ->
  sa_amount0 o < got ->
  paid <= sa_amount0 a /\ as_far (sa_dir a) (p_price (w_pool wo)) (p_price (w_pool wa)).
Proof.
  intros w o a wo wa paid fto ro pa got fta ra R ST FR MO MA EO EA LO LA LE.
  destruct (exact_in_view _ _ _ R MA EA) as (na & xa & grA & la & ga' & fta' & ra' & NA & NBa & X0 & G0 & XA & GA & WA & LGA).
  destruct (exact_out_view _ _ _ R MO EO) as (no & grO & inn & paid' & fto' & ro' & xo & NO & _ & GO0 & I0 & GO & PO & WO & ST2 & LGO).
  rewrite LA in LGA. apply movements_inj in LGA. destruct LGA as (_ & ->).
  rewrite LO in LGO. apply movements_inj in LGO. destruct LGO as (-> & _).
  destruct (flat_same _ _ _ (sa_amount0 a) xo ST FR) as (_ & NE). rewrite NA, NO in NE.
  apply Ok_inj in NE. subst no.
  destruct (swap_setting _ _ _ R EA) as (_ & _ & CK & P & _).
  destruct ST as (D & _ & _). rewrite <- D in *.
  assert (YY : grO < grA).
  { subst ga' grO. destruct (on_input w (sa_dir a)); [exact LE|]. apply gross_lt; assumption. }
  pose proof (walk_ok _ (sa_dir a) CK) as WK. pose proof (walk_low_pos _ (sa_dir a) _ CK P) as WL.
  destruct (takes_gives _ _ _ _ _ _ _ _ _ _ _ _ WK WL GO0 X0 WA YY WO) as (P1 & _ & C1).
  pose proof (takes_basic _ _ _ _ _ _ _ _ WA WK WL X0) as TB.
  split; [|apply as_far_pos; exact P1].
  subst paid'. destruct (on_input w (sa_dir a)); [apply gross_le; [assumption|lia]|lia].
Qed.

(** ** C56: splitting a trade does not pay *)
Lemma plain_rate c p p' cur x d : df_initialized (pf_dyn (c_fees c)) = 0 ->
  p_activation p' = p_activation p ->
  num_included c p' cur x d false = num_included c p cur x d false.
Proof.
  intros D A. unfold num_included, total_num_included. rewrite A.
  assert (V : forall b t t', total_fee_numerator (pf_dyn (c_fees c)) b t = total_fee_numerator (pf_dyn (c_fees c)) b t').
  { intros. unfold total_fee_numerator, variable_fee_numerator, dyn_enabled. rewrite D. reflexivity. }
  destruct (base_num_included _ _ _ _ _); cbn [bind]; [apply V|reflexivity].
Qed.

(** Without a dynamic fee and with a rate that does not depend on the amount, a trader who
    splits an exact-input trade in two (in the same block) receives no more in total than for
    the whole, and the price moves no further. *)
Theorem C56_no_gain_from_splitting : forall w a b t w1 w2 w3
    paid_a got_a ft_a ref_a paid_b got_b ft_b ref_b paid_t got_t ft_t ref_t,
  reachable w -> df_initialized (pf_dyn (c_fees (w_config w))) = 0 ->
  sa_dir a = sa_dir t -> sa_dir b = sa_dir t ->
  at_point w a = at_point w t -> at_point w b = at_point w t ->
  ~ bundle_entitled w a -> ~ bundle_entitled w t ->
  ~ limiter_active (w_config w) (p_activation (w_pool w)) (at_point w t) (sa_dir t) ->
  sa_mode a = 0 -> sa_mode b = 0 -> sa_mode t = 0 -> sa_amount0 t = sa_amount0 a + sa_amount0 b ->
  exec w (OSwap a) = Ok w1 -> exec w1 (OSwap b) = Ok w2 -> exec w (OSwap t) = Ok w3 ->
  w_log w1 = w_log w ++ swap_movements a paid_a got_a ft_a ref_a ->
  w_log w2 = w_log w1 ++ swap_movements b paid_b got_b ft_b ref_b ->
  w_log w3 = w_log w ++ swap_movements t paid_t got_t ft_t ref_t ->
  got_a + got_b <= got_t /\ as_far (sa_dir t) (p_price (w_pool w2)) (p_price (w_pool w3)).
Proof.
  intros w a b t w1 w2 w3 pa ga fta ra pb gb ftb rb pt gt ftt rt R DY DA DB PA PB BA BT LM MA MB MT SUM EA EB ET LA LB LT.
  pose proof (reachable_exec _ _ _ R EA) as R1.
  pose proof (reachable_inv _ R) as I.
  destruct (exec_frame _ _ _ I EA) as (FR & _).
  pose proof (fr_config _ _ FR) as FC. pose proof (pm_act _ _ (fr_pool _ _ FR)) as FA.
  destruct (swap_mono _ _ _ I EA) as (_ & _ & _ & HS & _).
  assert (BB : ~ bundle_entitled w1 b) by (intros (_ & Z0 & _); lia).
  destruct (exact_in_view _ _ _ R MA EA) as (na & xa & grA & la & ga' & fta' & ra' & NA & NBa & XA0 & GA0 & XA & GA & WA & LGA).
  destruct (exact_in_view _ _ _ R1 MB EB) as (nb & xb & grB & lb & gb' & ftb' & rb' & NB & NBb & XB0 & GB0 & XB & GB & WB & LGB).
  destruct (exact_in_view _ _ _ R MT ET) as (nt & xt & grT & lt & gt' & ftt' & rt' & NT & NBt & XT0 & GT0 & XT & GT & WT & LGT).
  rewrite LA in LGA. apply movements_inj in LGA. destruct LGA as (_ & ->).
  rewrite LB in LGB. apply movements_inj in LGB. destruct LGB as (_ & ->).
  rewrite LT in LGT. apply movements_inj in LGT. destruct LGT as (_ & ->).
  assert (EA' : entitled w a = false) by (apply not_true_iff_false; intros X; apply BA, eligible_iff, X).
  assert (EB' : entitled w1 b = false) by (apply not_true_iff_false; intros X; apply BB, eligible_iff, X).
  assert (ET' : entitled w t = false) by (apply not_true_iff_false; intros X; apply BT, eligible_iff, X).
  assert (PB' : at_point w1 b = at_point w t) by (unfold at_point in *; rewrite FC; exact PB).
  rewrite EB', PB', FC, DB in NB. rewrite (plain_rate _ (w_pool w)) in NB; [|exact DY|exact FA].
  rewrite EA', PA, DA in NA. rewrite ET' in NT.
  rewrite <- (excluded_same _ _ _ 0 (sa_amount0 a) _ _ LM) in NA.
  rewrite <- (excluded_same _ _ _ 0 (sa_amount0 b) _ _ LM) in NB.
  rewrite <- (excluded_same _ _ _ 0 (sa_amount0 t) _ _ LM) in NT. rewrite NA in NT, NB.
  apply Ok_inj in NT. apply Ok_inj in NB. subst nb nt.
  assert (OB : on_input w1 (sa_dir b) = on_input w (sa_dir t)) by (unfold on_input; rewrite FC, DB; reflexivity).
  rewrite OB in *. rewrite DA in *. rewrite DB in *.
  destruct (swap_setting _ _ _ R EA) as (_ & _ & CK & P & _).
  pose proof (walk_ok _ (sa_dir t) CK) as WK. pose proof (walk_low_pos _ (sa_dir t) _ CK P) as WL.
  unfold walk in *. rewrite FC in WB.
  assert (XX : xa + xb <= xt).
  { subst xa xb xt. rewrite SUM. destruct (on_input w (sa_dir t)); [apply net_add|lia]. }
  assert (S0 : 0 <= xa + xb) by lia.
  destruct (takes_total (walk_stop (w_config w) (sa_dir t)) _ _ _ (xa + xb) WK WL S0) as (q & l & g & T).
  destruct (takes_split _ _ _ _ _ _ _ _ _ _ _ _ _ _ _ WK WL XA0 XB0 WA WB T) as (Q1 & G1 & _).
  destruct (takes_mono _ _ _ _ _ _ _ _ _ _ _ _ WK WL S0 XX T WT) as (Q2 & G2 & _).
  split; [|apply as_far_pos; lia].
  subst ga' gb' gt'. destruct (on_input w (sa_dir t)); [lia|].
  pose proof (net_add grA grB na). pose proof (net_mono (grA + grB) grT na NBa ltac:(lia)). lia.
Qed.

(** ** Concrete cases and limits *)

(** An expensive base token: the price is 16 quote units per base unit at the start. Flat 1% fee
    on purchases in quote, no dynamic fee, no rate limiter. *)
Definition fx_paramsF : config_params :=
  {| q_base_fee := mkBaseFee 10000000 0 0 0 0;
     q_dynamic_fee := None;
     q_collect_fee_mode := 0; q_migration_option := 1; q_activation_type := 1;
     q_token_type := 1; q_token_decimal := 6;
     q_partner_liq_pct := 50; q_partner_perm_pct := 0; q_creator_liq_pct := 0;
     q_creator_perm_pct := 50;
     q_threshold := 150000000000; q_start := 4 * Q64_;
     q_vesting := mkLockedVesting 0 0 0 0 0;
     q_migration_fee_option := 2; q_token_supply := None;
     q_creator_trading_fee_pct := 0; q_token_update_authority := 0;
     q_migration_fee_pct := 0; q_creator_migration_fee_pct := 0;
     q_migrated_collect_mode := 0; q_migrated_dynamic_fee := 0; q_migrated_pool_fee_bps := 0;
     q_pool_creation_fee := 0;
     q_partner_vesting := no_vest; q_creator_vesting := no_vest;
     q_migrated_base_fee_mode := 0; q_mc_number_of_period := 0; q_mc_price_step := 0;
     q_mc_expiration := 0; q_mc_reduction := 0; q_first_swap_min_fee := false;
     q_compounding_fee_bps := 0; q_curve := [(5 * Q64_, 100000000019 * Q64_);(7 * Q64_, 100000000000 * Q64_)] |}.
Definition cfgF : config := Eval vm_compute in get dummy_config (fx_config fx_paramsF).
Example cfgF_created : fx_config fx_paramsF = Ok cfgF.
Proof. vm_compute. reflexivity. Qed.
Definition wF : world := Eval vm_compute in get dummy_world (fx_world cfgF 1).
Example wF_created : fx_world cfgF 1 = Ok wF. Proof. vm_compute. reflexivity. Qed.
Lemma typedF : params_typed fx_paramsF. Proof. typed. Qed.
Lemma createdF : created cfgF.
Proof. exists fx_paramsF, true, true, 1700000000, 11, 22, 33. split; [apply typedF|].
  split; [unfold u64ok; vm_compute; split; congruence|apply cfgF_created]. Qed.
Lemma initialF : initial wF.
Proof. exists cfgF, 77, 44, 55, 1, 1000, 1700000000, [99], []. split; [apply createdF|].
  split; [unfold u64ok; vm_compute; split; congruence|].
  split; [unfold u64ok; vm_compute; split; congruence|apply wF_created]. Qed.
Lemma reachF ops : reachable (run wF ops).
Proof. exists wF, ops. split; [apply initialF|reflexivity]. Qed.

(** A request alone in its transaction. *)
Definition req (d : direction) (mode a0 a1 now : Z) : swap_args :=
  mkSwapArgs 503 None d mode a0 a1 (1000 + (now - 1700000000) * 2) now plain_view.

Lemma req_not_entitled w d m x l t : ~ bundle_entitled w (req d m x l t).
Proof. intros (_ & _ & _ & _ & _ & i & I & _). exact I. Qed.
Lemma req_terms w d m x l m' x' l' t : same_terms w (req d m x l t) (req d m' x' l' t).
Proof.
  split; [reflexivity|]. split; [reflexivity|].
  split; intros H; exfalso; exact (req_not_entitled _ _ _ _ _ _ H).
Qed.
Lemma flatF ops d m x l t : w_config (run wF ops) = cfgF -> flat_rate (run wF ops) (req d m x l t).
Proof. intros E. right. rewrite E. intros (M & _). vm_compute in M. discriminate. Qed.

Example C54_case : exists w a b wa wb pa ga fa ra pb gb fb rb,
  reachable w /\ same_terms w a b /\ flat_rate w a /\ sa_mode a = 0 /\ sa_mode b = 0
  /\ sa_amount0 a <= sa_amount0 b /\ exec w (OSwap a) = Ok wa /\ exec w (OSwap b) = Ok wb
  /\ w_log wa = w_log w ++ swap_movements a pa ga fa ra
  /\ w_log wb = w_log w ++ swap_movements b pb gb fb rb
  /\ 0 < ga < gb.
Proof.
  exists (run wF []), (req QuoteToBase 0 20000000000 0 1700000000), (req QuoteToBase 0 40000000000 0 1700000000).
  eexists _, _, 20000000000, _, TQuote, 0, 40000000000, _, TQuote, 0.
  split; [apply reachF|]. split; [apply req_terms|]. split; [apply flatF; reflexivity|].
  split; [reflexivity|]. split; [reflexivity|]. split; [vm_compute; congruence|].
  split; [vm_compute; reflexivity|]. split; [vm_compute; reflexivity|].
  split; [vm_compute; reflexivity|]. split; [vm_compute; reflexivity|]. vm_compute; split; reflexivity.
Qed.

(** With the rate limiter in force one more unit of quote can buy less: the average fee rate is
    rounded to billionths, so it jumps. *)
Theorem C54_rate_limiter_refuted : exists w a b wa wb paid_a got_a ft_a ref_a paid_b got_b ft_b ref_b,
  reachable w /\ same_terms w a b /\ sa_mode a = 0 /\ sa_mode b = 0
  /\ sa_amount0 b = sa_amount0 a + 1
  /\ exec w (OSwap a) = Ok wa /\ exec w (OSwap b) = Ok wb
  /\ w_log wa = w_log w ++ swap_movements a paid_a got_a ft_a ref_a
  /\ w_log wb = w_log w ++ swap_movements b paid_b got_b ft_b ref_b
  /\ got_b = got_a - 30105.
Proof.
  exists (run wD []), (req QuoteToBase 0 80000590165 0 1700000000), (req QuoteToBase 0 80000590166 0 1700000000).
  eexists _, _, 80000590165, 43411927027006, TQuote, 0, 80000590166, 43411926996901, TQuote, 0.
  split; [apply reachD|]. split; [apply req_terms|].
  split; [reflexivity|]. split; [reflexivity|]. split; [reflexivity|].
  split; [vm_compute; reflexivity|]. split; [vm_compute; reflexivity|].
  split; [vm_compute; reflexivity|]. split; [vm_compute; reflexivity|]. reflexivity.
Qed.

Example C55_case : exists w o a wo wa paid fo ro pa got fa ra,
  reachable w /\ same_terms w a o /\ flat_rate w a /\ sa_mode o = 2 /\ sa_mode a = 0
  /\ exec w (OSwap o) = Ok wo /\ exec w (OSwap a) = Ok wa
  /\ w_log wo = w_log w ++ swap_movements o paid (sa_amount0 o) fo ro
  /\ w_log wa = w_log w ++ swap_movements a pa got fa ra
  /\ paid <= sa_amount0 a /\ sa_amount0 o < got.
Proof.
  exists (run wF []), (req QuoteToBase 2 1000000000 99000000000 1700000000), (req QuoteToBase 0 20000000000 0 1700000000).
  eexists _, _, _, TQuote, 0, 20000000000, _, TQuote, 0.
  split; [apply reachF|]. split; [apply req_terms|]. split; [apply flatF; reflexivity|].
  split; [reflexivity|]. split; [reflexivity|].
  split; [vm_compute; reflexivity|]. split; [vm_compute; reflexivity|].
  split; [vm_compute; reflexivity|]. split; [vm_compute; reflexivity|]. split; vm_compute; congruence.
Qed.

(** Asking for exactly what an exact-input request delivers can cost more than its input: a
    request that uses up a curve segment is charged to the end of the segment. *)
Theorem C55_same_output_refuted : exists w o a wo wa paid ft_o ref_o paid_a got ft_a ref_a,
  reachable w /\ same_terms w a o /\ flat_rate w a /\ sa_mode o = 2 /\ sa_mode a = 0
  /\ exec w (OSwap o) = Ok wo /\ exec w (OSwap a) = Ok wa
  /\ w_log wo = w_log w ++ swap_movements o paid (sa_amount0 o) ft_o ref_o
  /\ w_log wa = w_log w ++ swap_movements a paid_a got ft_a ref_a
  /\ sa_amount0 o = got /\ paid = sa_amount0 a + 13.
Proof.
  exists (run wF []), (req QuoteToBase 2 5000000000 999000000000 1700000000), (req QuoteToBase 0 101010101017 0 1700000000).
  eexists _, _, 101010101030, TQuote, 0, 101010101017, 5000000000, TQuote, 0.
  split; [apply reachF|]. split; [apply req_terms|]. split; [apply flatF; reflexivity|].
  split; [reflexivity|]. split; [reflexivity|].
  split; [vm_compute; reflexivity|]. split; [vm_compute; reflexivity|].
  split; [vm_compute; reflexivity|]. split; [vm_compute; reflexivity|]. split; reflexivity.
Qed.

Example C56_case : exists w a b t w1 w2 w3 pa ga fa ra pb gb fb rb pt gt ft rt,
  reachable w /\ df_initialized (pf_dyn (c_fees (w_config w))) = 0
  /\ sa_dir a = sa_dir t /\ sa_dir b = sa_dir t
  /\ at_point w a = at_point w t /\ at_point w b = at_point w t
  /\ ~ bundle_entitled w a /\ ~ bundle_entitled w t
  /\ ~ limiter_active (w_config w) (p_activation (w_pool w)) (at_point w t) (sa_dir t)
  /\ sa_mode a = 0 /\ sa_mode b = 0 /\ sa_mode t = 0 /\ sa_amount0 t = sa_amount0 a + sa_amount0 b
  /\ exec w (OSwap a) = Ok w1 /\ exec w1 (OSwap b) = Ok w2 /\ exec w (OSwap t) = Ok w3
  /\ w_log w1 = w_log w ++ swap_movements a pa ga fa ra
  /\ w_log w2 = w_log w1 ++ swap_movements b pb gb fb rb
  /\ w_log w3 = w_log w ++ swap_movements t pt gt ft rt
  /\ 0 < ga /\ 0 < gb /\ ga + gb <= gt.
Proof.
  exists (run wF []), (req QuoteToBase 0 70000000001 0 1700000000), (req QuoteToBase 0 50000000017 0 1700000000),
    (req QuoteToBase 0 120000000018 0 1700000000).
  eexists _, _, _, 70000000001, _, TQuote, 0, 50000000017, _, TQuote, 0, 120000000018, _, TQuote, 0.
  split; [apply reachF|]. do 5 (split; [reflexivity|]).
  do 2 (split; [apply req_not_entitled|]).
  split; [intros (M & _); vm_compute in M; discriminate|]. do 4 (split; [reflexivity|]).
  do 6 (split; [vm_compute; reflexivity|]). vm_compute. repeat split; congruence.
Qed.

(** With a dynamic fee splitting can pay: the fee of a trade is computed from the volatility as
    the previous trade left it, however long ago that was. A dust trade first refreshes it. *)
Theorem C56_dynamic_fee_refuted : exists w a b t w1 w2 w3
    paid_a got_a ft_a ref_a paid_b got_b ft_b ref_b paid_t got_t ft_t ref_t,
  reachable w
  /\ sa_dir a = sa_dir t /\ sa_dir b = sa_dir t
  /\ at_point w a = at_point w t /\ at_point w b = at_point w t
  /\ ~ bundle_entitled w a /\ ~ bundle_entitled w t
  /\ ~ limiter_active (w_config w) (p_activation (w_pool w)) (at_point w t) (sa_dir t)
  /\ sa_mode a = 0 /\ sa_mode b = 0 /\ sa_mode t = 0 /\ sa_amount0 t = sa_amount0 a + sa_amount0 b
  /\ exec w (OSwap a) = Ok w1 /\ exec w1 (OSwap b) = Ok w2 /\ exec w (OSwap t) = Ok w3
  /\ w_log w1 = w_log w ++ swap_movements a paid_a got_a ft_a ref_a
  /\ w_log w2 = w_log w1 ++ swap_movements b paid_b got_b ft_b ref_b
  /\ w_log w3 = w_log w ++ swap_movements t paid_t got_t ft_t ref_t
  /\ sa_amount0 a = 1000 /\ got_a + got_b = got_t + 81250313.
Proof.
  exists (run wA histA1), (req QuoteToBase 0 1000 0 1700000800), (req QuoteToBase 0 4999999000 0 1700000800),
    (req QuoteToBase 0 5000000000 0 1700000800).
  eexists _, _, _, 1000, 555170, TQuote, 0, 4999999000, 2716434227374, TQuote, 0, 5000000000, 2716353532231, TQuote, 0.
  split; [apply reachA|]. do 4 (split; [vm_compute; reflexivity|]).
  do 2 (split; [apply req_not_entitled|]).
  split; [intros (M & _); vm_compute in M; discriminate|]. do 4 (split; [reflexivity|]).
  do 6 (split; [vm_compute; reflexivity|]). split; reflexivity.
Qed.

Print Assumptions C54_more_in_more_out.
Print Assumptions C54_rate_limiter_refuted.
Print Assumptions C55_in_covers_out.
Print Assumptions C55_out_within_in.
Print Assumptions C55_same_output_refuted.
Print Assumptions C56_no_gain_from_splitting.
Print Assumptions C56_dynamic_fee_refuted.
