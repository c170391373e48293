(** * C72: waiting never costs; and the exact-output half of C54. *)
From Coq Require Import ZArith QArith Qround List Bool Lia ZifyBool Lqa.
From Verif Require Import Base MathModel CurveModel FeeModel ConfigModel PoolModel TxModel
  SystemModel Fixtures Spec Lib CurveProofs CurveLoops Potential CalcProofs ConfigProofs FeeProofs
  SwapProofs InvProofs InvOps InvReach FixturesReach PropSwap Effects Frame Bounds PropSafe PropVol
  PropSched PropLimiter PropRate LimInv PropPart
  TxTree PropTx Live PropSell PropBuy SdkModel PropSdk Steps Walks PropTrade.
Import ListNotations.
Open Scope Z_scope.
#[local] Arguments Z.pow : simpl never.
#[local] Arguments Z.testbit : simpl never.

(** ** Asking for more costs more *)
Lemma gives_mono l : forall lo pos y1 y2 pos1 cost1 pos2 cost2,
  segs_ok lo l -> lo <= pos -> 0 <= y1 -> y1 < y2 ->
  gives l pos y1 pos1 0 cost1 -> gives l pos y2 pos2 0 cost2 ->
  pos1 <= pos2 /\ cost1 <= cost2.
Proof.
  induction l as [|s rest IH]; intros lo pos y1 y2 pos1 cost1 pos2 cost2 OK L Y LT G1 G2.
  - inversion G1; subst. inversion G2; subst. lia.
  - assert (YQ : (inject_Z y1 <= inject_Z y2)%Q) by (apply inj_le; lia).
    pose proof (gives_basic _ _ _ _ _ _ _ G1 OK L Y) as (B1 & _ & C1).
    pose proof (gives_basic _ _ _ _ _ _ _ G2 OK L ltac:(lia)) as (B2 & _ & C2).
    apply gives_inv in G1. apply gives_inv in G2.
    destruct G1 as [(A & G1)|[(A & P1 & E1 & F1 & _ & ->)|(A & P1 & k1 & G1 & ->)]];
    destruct G2 as [(A' & G2)|[(A' & P2 & E2 & F2 & _ & ->)|(A' & P2 & k2 & G2 & ->)]]; try lia.
    + destruct OK as (_ & OK). eapply (IH (g_end s)); [exact OK| | | |exact G1|exact G2]; lia.
    + assert (E : pos1 <= pos2).
      { destruct (Z_le_gt_dec pos1 pos2); auto. destruct F1 as [->|F1]; [lia|].
        destruct (seg_mono _ _ _ pos2 (pos1 - 1) OK) as (_ & C); try lia. lra. }
      destruct (seg_mono _ _ _ pos1 pos2 OK) as (C & _); try lia.
      split; [exact E|apply Qceiling_resp_le; lra].
    + pose proof (gives_basic _ _ _ _ _ _ _ G2 (proj2 OK) ltac:(lia) ltac:(lia)) as (B3 & _ & K0).
      destruct (seg_mono _ _ _ pos1 (g_end s) OK) as (C & _); try lia.
      assert (Q : Qceiling (g_cost s pos1 - g_cost s pos) <= Qceiling (g_cost s (g_end s) - g_cost s pos))
        by (apply Qceiling_resp_le; lra). lia.
    + exfalso. destruct (seg_mono _ _ _ pos2 (g_end s) OK) as (_ & G); try lia.
      assert (Q : y2 <= Qfloor (g_gain s (g_end s) - g_gain s pos)) by (apply floor_ge; lra). lia.
    + destruct OK as (_ & OK).
      assert (R : pos1 <= pos2 /\ k1 <= k2); [|lia].
      eapply (IH (g_end s)); [exact OK| | | |exact G1|exact G2]; lia.
Qed.

(** An exact-output swap in full: also which amount the fee rate was computed for. *)
Lemma exact_out_detail w a w' : reachable w -> sa_mode a = 2 -> exec w (OSwap a) = Ok w' ->
  exists num gross s paid ft rf,
    num_excluded (w_config w) (w_pool w) (at_point w a)
      (if on_input w (sa_dir a) then fo_in s else sa_amount0 a) (sa_dir a) (entitled w a) = Ok num
    /\ 0 <= num <= MAX_FEE_NUMERATOR /\ 0 <= gross /\ 0 <= fo_in s
    /\ gross = (if on_input w (sa_dir a) then sa_amount0 a
                else cdiv (sa_amount0 a * FEE_DENOMINATOR) (FEE_DENOMINATOR - num))
    /\ paid = (if on_input w (sa_dir a) then cdiv (fo_in s * FEE_DENOMINATOR) (FEE_DENOMINATOR - num) else fo_in s)
    /\ fo_of_direction (w_config w) (p_price (w_pool w)) (sa_dir a) gross = Ok s
    /\ reach_out w (sa_dir a) gross (p_price (w_pool w')) (fo_in s)
    /\ p_price (w_pool w') = fo_price s
    /\ w_log w' = w_log w ++ swap_movements a paid (sa_amount0 a) ft rf.
Proof.
  intros R M H. destruct (swap_setting _ _ _ R H) as (K & F & CK & P & A0 & r & fm & vt & OI & VA & PS & LG & PR).
  unfold process_swap in PS. rewrite M in PS. simpl (2 =? 0) in PS. simpl (2 =? 1) in PS. simpl (2 =? 2) in PS. cbn iota in PS.
  apply bind_ok in PS. destruct PS as (r' & S & PS). apply bind_ok in PS. destruct PS as (u & _ & PS).
  apply Ok_inj in PS. subst r'. rewrite exact_out_va in S by exact VA.
  unfold swap_exact_out in S. rewrite OI in *.
  assert (DP : 0 < FEE_DENOMINATOR) by reflexivity.
  destruct (on_input w (sa_dir a)).
  - cbn [bind] in S. apply bind_ok in S. destruct S as (s & FO & S).
    apply bind_ok in S. destruct S as (u2 & U2 & S). apply require_ok in U2.
    apply bind_ok in S. destruct S as ([[[incl tr] pr] rf] & Q & S). apply Ok_inj in S.
    apply bind_ok in Q. destruct Q as (num & N & Q). apply bind_ok in Q. destruct Q as ([i fee] & G & Q).
    apply bind_ok in Q. destruct Q as ([[t p] q] & _ & Q). injection Q as <- <- <- <-.
    pose proof (num_excluded_bounds _ _ _ _ _ _ _ F N) as NB.
    destruct (fo_moves _ _ _ _ _ _ CK P A0 FO ltac:(lia)) as (_ & P2 & _ & I0).
    pose proof (fo_gives _ _ _ _ _ CK P A0 FO) as T.
    apply included_fee_ok in G; [|lia|lia]. destruct G as (_ & _ & _ & _ & GI & _).
    exists num, (sa_amount0 a), s, i, (ftok fm), (sr_referral r).
    subst r. cbn [sr_included sr_output sr_price sr_referral] in *.
    repeat (split; [first [assumption|lia|reflexivity]|]). unfold reach_out. rewrite PR.
    split; [exact T|]. split; [reflexivity|exact LG].
  - apply bind_ok in S. destruct S as ([[[gr tr] pr] rf] & Q & S).
    apply bind_ok in Q. destruct Q as (num & N & Q). apply bind_ok in Q. destruct Q as ([i fee] & G & Q).
    apply bind_ok in Q. destruct Q as ([[t p] q] & _ & Q). injection Q as <- <- <- <-.
    pose proof (num_excluded_bounds _ _ _ _ _ _ _ F N) as NB.
    apply included_fee_ok in G; [|lia|lia]. destruct G as (_ & GE & GF & _ & GI & _).
    apply bind_ok in S. destruct S as (s & FO & S).
    apply bind_ok in S. destruct S as (u2 & U2 & S). apply require_ok in U2. cbn [bind] in S. apply Ok_inj in S.
    assert (GI0 : 0 <= i) by lia.
    destruct (fo_moves _ _ _ _ _ _ CK P GI0 FO ltac:(lia)) as (_ & P2 & _ & I0).
    pose proof (fo_gives _ _ _ _ _ CK P GI0 FO) as T.
    exists num, i, s, (fo_in s), (ftok fm), (sr_referral r).
    subst r. cbn [sr_included sr_output sr_price sr_referral] in *.
    repeat (split; [first [assumption|lia|reflexivity]|]). unfold reach_out. rewrite PR.
    split; [exact T|]. split; [reflexivity|exact LG].
Qed.

(** A smaller demand is met with a smaller input. *)
Lemma demand_mono w d g1 g2 s1 s2 : curve_ok (w_config w) (curve_points (w_config w)) ->
  c_start (w_config w) <= p_price (w_pool w) <= c_mig_price (w_config w) ->
  0 <= g1 <= g2 ->
  fo_of_direction (w_config w) (p_price (w_pool w)) d g1 = Ok s1 ->
  fo_of_direction (w_config w) (p_price (w_pool w)) d g2 = Ok s2 ->
  fo_in s1 <= fo_in s2 /\ as_far d (fo_price s1) (fo_price s2).
Proof.
  intros CK P G F1 F2. destruct (Z.eq_dec g1 g2) as [->|NE].
  - rewrite F1 in F2. apply Ok_inj in F2. subst s2. split; [lia|destruct d; simpl; lia].
  - assert (G2 : 0 <= g2) by lia. assert (LT : g1 < g2) by lia.
    pose proof (fo_gives _ _ _ _ _ CK P (proj1 G) F1) as T1.
    pose proof (fo_gives _ _ _ _ _ CK P G2 F2) as T2.
    destruct (gives_mono _ _ _ _ _ _ _ _ _ (walk_ok _ d CK) (walk_low_pos _ d _ CK P) (proj1 G) LT T1 T2) as (A & B).
    split; [exact B|apply as_far_pos; exact A].
Qed.

(** Grossing up: monotone in the amount and in the rate. *)
Lemma gross_mono x y n m : 0 <= x <= y -> 0 <= n <= m -> m <= MAX_FEE_NUMERATOR ->
  0 <= cdiv (x * FEE_DENOMINATOR) (FEE_DENOMINATOR - n) <= cdiv (y * FEE_DENOMINATOR) (FEE_DENOMINATOR - m).
Proof.
  intros X N M. unfold MAX_FEE_NUMERATOR, FEE_DENOMINATOR in *.
  split; [apply cdiv_nonneg; lia|]. apply cdiv_le; [lia|].
  pose proof (cdiv_ub (y * 1000000000) (1000000000 - m) ltac:(lia)) as U.
  assert (C0 : 0 <= cdiv (y * 1000000000) (1000000000 - m)) by (apply cdiv_nonneg; lia).
  set (q := cdiv (y * 1000000000) (1000000000 - m)) in *. clearbody q.
  assert (q * (1000000000 - m) <= q * (1000000000 - n)) by (apply Z.mul_le_mono_nonneg_l; lia). lia.
Qed.

Lemma net_fee_mono x n m : 0 <= x -> n <= m ->
  x - cdiv (x * m) FEE_DENOMINATOR <= x - cdiv (x * n) FEE_DENOMINATOR.
Proof.
  intros X N. assert (cdiv (x * n) FEE_DENOMINATOR <= cdiv (x * m) FEE_DENOMINATOR); [|lia].
  apply cdiv_mono; [reflexivity|]. apply Z.mul_le_mono_nonneg_l; lia.
Qed.

Theorem C54_more_out_costs_more : forall w a b wa wb paid_a ft_a ref_a paid_b ft_b ref_b,
  reachable w -> same_terms w a b -> flat_rate w a ->
  sa_mode a = 2 -> sa_mode b = 2 -> sa_amount0 a <= sa_amount0 b ->
  exec w (OSwap a) = Ok wa -> exec w (OSwap b) = Ok wb ->
  w_log wa = w_log w ++ swap_movements a paid_a (sa_amount0 a) ft_a ref_a ->
  w_log wb = w_log w ++ swap_movements b paid_b (sa_amount0 b) ft_b ref_b ->
  paid_a <= paid_b /\ as_far (sa_dir a) (p_price (w_pool wa)) (p_price (w_pool wb)).
Proof.
  intros w a b wa wb pa fta ra pb ftb rb R ST FR MA MB LE EA EB LA LB.
  destruct (exact_out_detail _ _ _ R MA EA) as (na & ga & sa & pa' & fta' & ra' & NA & BA & GA0 & IA0 & GA & PA & FA & _ & PRA & LGA).
  destruct (exact_out_detail _ _ _ R MB EB) as (nb & gb & sb & pb' & ftb' & rb' & NB & BB & GB0 & IB0 & GB & PB & FB & _ & PRB & LGB).
  rewrite LA in LGA. apply movements_inj in LGA. destruct LGA as (-> & _).
  rewrite LB in LGB. apply movements_inj in LGB. destruct LGB as (-> & _).
  destruct (swap_setting _ _ _ R EA) as (_ & _ & CK & P & A0 & _).
  destruct (flat_same _ _ _ 0 (if on_input w (sa_dir a) then fo_in sa else sa_amount0 a)
             (conj (eq_refl (sa_dir a)) (conj eq_refl (iff_refl _)) : same_terms w a a) FR) as (_ & N1).
  destruct (flat_same _ _ _ 0 (if on_input w (sa_dir b) then fo_in sb else sa_amount0 b) ST FR) as (_ & N2).
  rewrite NA in N1. rewrite NB, N1 in N2. apply Ok_inj in N2. subst nb.
  destruct ST as (D & _ & _). rewrite <- D in *. rewrite PRA, PRB.
  assert (GG : ga <= gb).
  { subst ga gb. destruct (on_input w (sa_dir a)); [exact LE|].
    apply (gross_mono (sa_amount0 a) (sa_amount0 b) na na); lia. }
  destruct (demand_mono _ _ _ _ _ _ CK P (conj GA0 GG) FA FB) as (I & Q).
  split; [|exact Q]. subst pa' pb'. destruct (on_input w (sa_dir a)); [|exact I].
  apply (gross_mono (fo_in sa) (fo_in sb) na na); lia.
Qed.

(** ** C72 *)

(** The same request, made at a later time. *)
Record later (a b : swap_args) : Prop := {
  lt_user : sa_user b = sa_user a;
  lt_ref : sa_referral b = sa_referral a;
  lt_dir : sa_dir b = sa_dir a;
  lt_mode : sa_mode b = sa_mode a;
  lt_amount : sa_amount0 b = sa_amount0 a;
  lt_view : sa_view b = sa_view a;
  lt_slot : sa_slot a <= sa_slot b;
  lt_now : sa_now a <= sa_now b
}.

Lemma later_point w a b : later a b -> at_point w a <= at_point w b.
Proof. intros []. unfold at_point, point_of. destruct (_ =? 0); lia. Qed.
Lemma later_entitled w a b : later a b -> entitled w b = entitled w a.
Proof. intros []. unfold entitled. congruence. Qed.

(** The base fee rate never rises with time. *)
Lemma base_falls c act d x t1 t2 f1 f2 (kind : bool) : created c -> 0 <= x -> t1 <= t2 ->
  (if kind then base_num_included else base_num_excluded) (pf_base (c_fees c)) t1 act d x = Ok f1 ->
  (if kind then base_num_included else base_num_excluded) (pf_base (c_fees c)) t2 act d x = Ok f2 ->
  f2 <= f1.
Proof.
  intros C X T H1 H2. set (b := pf_base (c_fees c)) in *.
  destruct (Z.eq_dec (bf_mode b) 2) as [M|M].
  - destruct (limiter_cases c C M) as (CL & Z). fold b in CL, Z.
    assert (B1 : exists ap, rl_applied b t1 act d = Ok ap
       /\ (if ap then (if kind then rl_num_included else rl_num_excluded) b x else Ok (bf_cliff b)) = Ok f1).
    { destruct kind; [unfold base_num_included in H1|unfold base_num_excluded in H1]; rewrite M in H1;
      change ((2 =? 0) || (2 =? 1)) with false in H1; change (2 =? 2) with true in H1; cbv iota in H1;
      apply bind_ok in H1; destruct H1 as (ap & AP & H1); exists ap; auto. }
    assert (B2 : exists ap, rl_applied b t2 act d = Ok ap
       /\ (if ap then (if kind then rl_num_included else rl_num_excluded) b x else Ok (bf_cliff b)) = Ok f2).
    { destruct kind; [unfold base_num_included in H2|unfold base_num_excluded in H2]; rewrite M in H2;
      change ((2 =? 0) || (2 =? 1)) with false in H2; change (2 =? 2) with true in H2; cbv iota in H2;
      apply bind_ok in H2; destruct H2 as (ap & AP & H2); exists ap; auto. }
    destruct B1 as (ap1 & AP1 & E1). destruct B2 as (ap2 & AP2 & E2).
    destruct Z as [(Z1 & Z2 & Z3)|L].
    + unfold rl_applied, rl_is_zero in AP1, AP2. rewrite Z1, Z2, Z3 in AP1, AP2. simpl in AP1, AP2.
      apply Ok_inj in AP1, AP2. subst. apply Ok_inj in E1, E2. lia.
    + apply rl_applied_inv in AP1; auto. apply rl_applied_inv in AP2; auto.
      assert (IMP : ap2 = true -> ap1 = true) by (subst ap1 ap2; destruct d; lia).
      destruct ap2.
      * rewrite (IMP eq_refl) in E1. rewrite E1 in E2. apply Ok_inj in E2. lia.
      * apply Ok_inj in E2. subst f2. destruct ap1; [|apply Ok_inj in E1; lia].
        destruct kind; [apply (rl_num_ge _ _ _ L X E1)|apply (rl_excluded_num_ge _ _ _ L E1)].
  - assert (M2 : bf_mode b = 0 \/ bf_mode b = 1).
    { destruct kind; [unfold base_num_included in H1|unfold base_num_excluded in H1];
      destruct ((bf_mode b =? 0) || (bf_mode b =? 1)) eqn:E; try lia;
      replace (bf_mode b =? 2) with false in H1 by lia; discriminate H1. }
    assert (S1 : sched_numerator b t1 act = Ok f1)
      by (destruct (base_num_sched b t1 act d x M2) as (A & B); destruct kind; congruence).
    assert (S2 : sched_numerator b t2 act = Ok f2)
      by (destruct (base_num_sched b t2 act d x M2) as (A & B); destruct kind; congruence).
    assert (FA : falling (fun t => sched_numerator b t act) act (act + bf_first b * bf_second b) (bf_cliff b)).
    { destruct M2 as [M2|M2]; [destruct (C29_linear c act d x C M2) as (FA & _)
                              |destruct (C30_exponential c act d x C M2) as (FA & _)];
      (eapply falling_ext; [|exact FA]); intros t; fold b; symmetry;
      [apply (base_num_sched b t act d x (or_introl M2))|apply (base_num_sched b t act d x (or_intror M2))]. }
    assert (ACT : act <= t1 \/ bf_second b = 0).
    { unfold sched_numerator in S1. destruct (bf_second b =? 0) eqn:Z; [right; lia|left].
      apply bind_ok in S1. destruct S1 as (e & E & _). apply ssub_ok in E. lia. }
    destruct ACT as [ACT|Z].
    + destruct FA as (_ & FA). destruct (FA t1 t2 ltac:(lia)) as (x1 & x2 & X1 & X2 & _ & LE & _).
      rewrite S1 in X1. rewrite S2 in X2. apply Ok_inj in X1, X2. lia.
    + unfold sched_numerator in S1, S2. rewrite Z in S1, S2. simpl in S1, S2.
      apply Ok_inj in S1, S2. lia.
Qed.

Lemma num_falls c p d x el t1 t2 n1 n2 (kind : bool) : created c -> 0 <= x -> t1 <= t2 ->
  (if kind then num_included else num_excluded) c p t1 x d el = Ok n1 ->
  (if kind then num_included else num_excluded) c p t2 x d el = Ok n2 -> n2 <= n1.
Proof.
  intros C X T H1 H2. destruct el.
  { destruct kind; [unfold num_included in *|unfold num_excluded in *]; rewrite H1 in H2; apply Ok_inj in H2; lia. }
  pose proof (created_fees_ok c C) as F.
  assert (B1 : exists b, (if kind then base_num_included else base_num_excluded) (pf_base (c_fees c)) t1 (p_activation p) d x = Ok b
     /\ total_fee_numerator (pf_dyn (c_fees c)) b (p_tracker p) = Ok n1).
  { destruct kind; [unfold num_included, total_num_included in H1|unfold num_excluded, total_num_excluded in H1];
    apply bind_ok in H1; destruct H1 as (b & B & H1); exists b; auto. }
  assert (B2 : exists b, (if kind then base_num_included else base_num_excluded) (pf_base (c_fees c)) t2 (p_activation p) d x = Ok b
     /\ total_fee_numerator (pf_dyn (c_fees c)) b (p_tracker p) = Ok n2).
  { destruct kind; [unfold num_included, total_num_included in H2|unfold num_excluded, total_num_excluded in H2];
    apply bind_ok in H2; destruct H2 as (b & B & H2); exists b; auto. }
  destruct B1 as (b1 & B1 & T1). destruct B2 as (b2 & B2 & T2).
  pose proof (base_falls _ _ _ _ _ _ _ _ _ C X T B1 B2) as LE.
  unfold total_fee_numerator in T1, T2. apply bind_ok in T1. destruct T1 as (v & V & T1). rewrite V in T2.
  cbn [bind] in T2. apply bind_ok in T1. destruct T1 as (s1 & S1 & T1). apply bind_ok in T2. destruct T2 as (s2 & S2 & T2).
  apply sadd_ok in S1, S2. apply Ok_inj in T1, T2. subst n1 n2.
  destruct (MAX_FEE_NUMERATOR <? s1) eqn:L1; destruct (MAX_FEE_NUMERATOR <? s2) eqn:L2; lia.
Qed.

(** A swap that names what it pays, filled in whole or in part. *)
Lemma in_view w a w' : reachable w -> sa_mode a = 0 \/ sa_mode a = 1 -> exec w (OSwap a) = Ok w' ->
  exists num net gross left paid got ft rf,
    num_included (w_config w) (w_pool w) (at_point w a) (sa_amount0 a) (sa_dir a) (entitled w a) = Ok num
    /\ 0 <= num <= MAX_FEE_NUMERATOR /\ 0 <= net /\ 0 <= gross
    /\ net = (if on_input w (sa_dir a) then sa_amount0 a - cdiv (sa_amount0 a * num) FEE_DENOMINATOR
              else sa_amount0 a)
    /\ got = (if on_input w (sa_dir a) then gross else gross - cdiv (gross * num) FEE_DENOMINATOR)
    /\ (sa_mode a = 0 -> paid = sa_amount0 a)
    /\ walk w (sa_dir a) net (p_price (w_pool w')) left gross
    /\ w_log w' = w_log w ++ swap_movements a paid got ft rf.
Proof.
  intros R [M|M] H.
  { destruct (exact_in_view _ _ _ R M H) as (num & net & gross & left & got & ft & rf & X).
    exists num, net, gross, left, (sa_amount0 a), got, ft, rf. tauto. }
  destruct (swap_setting _ _ _ R H) as (K & F & CK & P & A0 & r & fm & vt & OI & VA & PS & LG & PR).
  unfold process_swap in PS. rewrite M in PS. simpl (1 =? 0) in PS. simpl (1 =? 1) in PS. cbn iota in PS.
  apply bind_ok in PS. destruct PS as (r' & S & PS). apply bind_ok in PS. destruct PS as (u & _ & PS).
  apply Ok_inj in PS. subst r'. rewrite partial_va in S by exact VA.
  unfold swap_partial in S. apply bind_ok in S. destruct S as (num & N & S).
  apply bind_ok in S. destruct S as (f & FF & S). apply bind_ok in S. destruct S as (s & FI & S).
  apply bind_ok in S. destruct S as ([[[[incl actual] tr] pr] rf] & _ & S).
  apply bind_ok in S. destruct S as (g & G & S).
  apply Ok_inj in S. rewrite OI in *.
  pose proof (num_included_bounds _ _ _ _ _ _ _ F A0 N) as NB.
  pose proof (fee_le_gross (sa_amount0 a) num A0 NB) as FB.
  assert (NET : foa_amount f = (if on_input w (sa_dir a) then sa_amount0 a - cdiv (sa_amount0 a * num) FEE_DENOMINATOR
              else sa_amount0 a)).
  { destruct (on_input w (sa_dir a)).
    - apply fee_on_amount_ok in FF. destruct FF as (fee & -> & _ & FA & _). exact FA.
    - apply Ok_inj in FF. subst f. reflexivity. }
  assert (N0 : 0 <= foa_amount f) by (rewrite NET; destruct (on_input w (sa_dir a)); lia).
  assert (GOT : foa_amount g = (if on_input w (sa_dir a) then fi_out s
                                else fi_out s - cdiv (fi_out s * num) FEE_DENOMINATOR)).
  { destruct (on_input w (sa_dir a)).
    - apply Ok_inj in G. subst g. reflexivity.
    - apply fee_on_amount_ok in G. destruct G as (fee & -> & _ & FA & _). exact FA. }
  pose proof (fi_moves _ _ _ _ _ _ CK P N0 FI) as (_ & _ & _ & _ & O0).
  destruct (fi_takes _ _ _ _ _ CK P N0 FI) as (left & _ & T).
  exists num, (foa_amount f), (fi_out s), left, incl, (foa_amount g), (ftok fm), (sr_referral r).
  subst r. cbn [sr_included sr_output sr_price sr_referral] in *.
  repeat (split; [first [assumption|lia]|]). split; [unfold walk; rewrite PR; exact T|exact LG].
Qed.

(** Someone who pays a given amount gets at least as much by waiting, as long as nobody trades in
    between; someone who wants a given amount pays at most as much. *)
Theorem C72_waiting_buys_no_less : forall w a b wa wb paid_a got_a ft_a ref_a paid_b got_b ft_b ref_b,
  reachable w -> later a b -> sa_mode a = 0 \/ sa_mode a = 1 ->
  exec w (OSwap a) = Ok wa -> exec w (OSwap b) = Ok wb ->
  w_log wa = w_log w ++ swap_movements a paid_a got_a ft_a ref_a ->
  w_log wb = w_log w ++ swap_movements b paid_b got_b ft_b ref_b ->
  got_a <= got_b /\ (sa_mode a = 0 -> paid_b = paid_a).
Proof.
  intros w a b wa wb pa ga fta ra pb gb ftb rb R LT MA EA EB LA LB.
  assert (MB : sa_mode b = 0 \/ sa_mode b = 1) by (rewrite (lt_mode _ _ LT); exact MA).
  destruct (in_view _ _ _ R MA EA) as (na & xa & grA & la & pa' & ga' & fta' & ra' & NA & NBa & X0 & G0 & XA & GA & PA & WA & LGA).
  destruct (in_view _ _ _ R MB EB) as (nb & xb & grB & lb & pb' & gb' & ftb' & rb' & NB & NBb & XB0 & GB0 & XB & GB & PB & WB & LGB).
  rewrite LA in LGA. apply movements_inj in LGA. destruct LGA as (-> & ->).
  rewrite LB in LGB. apply movements_inj in LGB. destruct LGB as (-> & ->).
  destruct (swap_setting _ _ _ R EA) as (_ & _ & CK & P & A0 & _).
  rewrite (lt_dir _ _ LT), (lt_amount _ _ LT), (later_entitled w _ _ LT), (lt_mode _ _ LT) in *.
  pose proof (iv_created _ (reachable_inv _ R)) as CR.
  pose proof (num_falls _ _ _ _ _ _ _ _ _ true CR A0 (later_point w _ _ LT) NA NB) as NL.
  assert (XX : xa <= xb).
  { subst xa xb. destruct (on_input w (sa_dir a)); [apply net_fee_mono; assumption|lia]. }
  destruct (takes_mono _ _ _ _ _ _ _ _ _ _ _ _ (walk_ok _ (sa_dir a) CK) (walk_low_pos _ (sa_dir a) _ CK P) X0 XX WA WB) as (P1 & O1 & _).
  split; [|intros M; rewrite PA, PB by exact M; reflexivity].
  subst ga' gb'. destruct (on_input w (sa_dir a)); [exact O1|].
  etransitivity; [apply (net_fee_mono grA nb na); assumption|apply net_mono; assumption].
Qed.

Theorem C72_waiting_costs_no_more : forall w a b wa wb paid_a ft_a ref_a paid_b ft_b ref_b,
  reachable w -> later a b -> sa_mode a = 2 ->
  exec w (OSwap a) = Ok wa -> exec w (OSwap b) = Ok wb ->
  w_log wa = w_log w ++ swap_movements a paid_a (sa_amount0 a) ft_a ref_a ->
  w_log wb = w_log w ++ swap_movements b paid_b (sa_amount0 b) ft_b ref_b ->
  sa_amount0 b = sa_amount0 a /\ paid_b <= paid_a.
Proof.
  intros w a b wa wb pa fta ra pb ftb rb R LT MA EA EB LA LB.
  assert (MB : sa_mode b = 2) by (rewrite (lt_mode _ _ LT); exact MA).
  destruct (exact_out_detail _ _ _ R MA EA) as (na & ga & sa & pa' & fta' & ra' & NA & BA & GA0 & IA0 & GA & PA & FA & _ & PRA & LGA).
  destruct (exact_out_detail _ _ _ R MB EB) as (nb & gb & sb & pb' & ftb' & rb' & NB & BB & GB0 & IB0 & GB & PB & FB & _ & PRB & LGB).
  rewrite LA in LGA. apply movements_inj in LGA. destruct LGA as (-> & _).
  rewrite LB in LGB. apply movements_inj in LGB. destruct LGB as (-> & _).
  destruct (swap_setting _ _ _ R EA) as (_ & _ & CK & P & A0 & _).
  rewrite (lt_dir _ _ LT), (lt_amount _ _ LT), (later_entitled w _ _ LT) in *. split; [reflexivity|].
  pose proof (iv_created _ (reachable_inv _ R)) as CR.
  destruct (on_input w (sa_dir a)).
  - subst ga gb. rewrite FA in FB. apply Ok_inj in FB. subst sb.
    pose proof (num_falls _ _ _ _ _ _ _ _ _ false CR IA0 (later_point w _ _ LT) NA NB) as NL.
    subst pa' pb'. apply gross_mono; lia.
  - pose proof (num_falls _ _ _ _ _ _ _ _ _ false CR A0 (later_point w _ _ LT) NA NB) as NL.
    assert (GG : gb <= ga) by (subst ga gb; apply gross_mono; lia).
    destruct (demand_mono _ _ _ _ _ _ CK P (conj GB0 GG) FB FA) as (I & _). lia.
Qed.

(** ** Cases *)
Lemma req_later d m x l t u : t <= u -> later (req d m x l t) (req d m x l u).
Proof. intros. constructor; try reflexivity; cbn [req sa_slot sa_now]; lia. Qed.

(** The fee schedule of pool A falls, so ten minutes later the same quote buys more. *)
Example C72_case_buy : exists w a b wa wb pa ga fa ra pb gb fb rb,
  reachable w /\ later a b /\ (sa_mode a = 0 \/ sa_mode a = 1)
  /\ exec w (OSwap a) = Ok wa /\ exec w (OSwap b) = Ok wb
  /\ w_log wa = w_log w ++ swap_movements a pa ga fa ra
  /\ w_log wb = w_log w ++ swap_movements b pb gb fb rb
  /\ 0 < ga < gb.
Proof.
  exists (run wA []), (req QuoteToBase 0 20000000000 0 1700000000), (req QuoteToBase 0 20000000000 0 1700000600).
  eexists _, _, 20000000000, _, TQuote, 0, 20000000000, _, TQuote, 0.
  split; [apply reachA|]. split; [apply req_later; lia|]. split; [left; reflexivity|].
  split; [vm_compute; reflexivity|]. split; [vm_compute; reflexivity|].
  split; [vm_compute; reflexivity|]. split; [vm_compute; reflexivity|]. vm_compute; split; reflexivity.
Qed.

(** The rate limiter of pool C ends after ten minutes; the same tokens are then cheaper. *)
Example C72_case_want : exists w a b wa wb pa fa ra pb fb rb,
  reachable w /\ later a b /\ sa_mode a = 2
  /\ exec w (OSwap a) = Ok wa /\ exec w (OSwap b) = Ok wb
  /\ w_log wa = w_log w ++ swap_movements a pa (sa_amount0 a) fa ra
  /\ w_log wb = w_log w ++ swap_movements b pb (sa_amount0 b) fb rb
  /\ 0 < pb < pa.
Proof.
  exists (run wC []), (req QuoteToBase 2 5000000000000 99000000000 1700000000), (req QuoteToBase 2 5000000000000 99000000000 1700000601).
  eexists _, _, _, TQuote, 0, _, TQuote, 0.
  split; [apply reachC|]. split; [apply req_later; lia|]. split; [reflexivity|].
  split; [vm_compute; reflexivity|]. split; [vm_compute; reflexivity|].
  split; [vm_compute; reflexivity|]. split; [vm_compute; reflexivity|]. vm_compute; split; reflexivity.
Qed.

(** Asking for twice as much of pool F costs more. *)
Example C54_case_want : exists w a b wa wb pa fa ra pb fb rb,
  reachable w /\ same_terms w a b /\ flat_rate w a /\ sa_mode a = 2 /\ sa_mode b = 2
  /\ sa_amount0 a <= sa_amount0 b /\ exec w (OSwap a) = Ok wa /\ exec w (OSwap b) = Ok wb
  /\ w_log wa = w_log w ++ swap_movements a pa (sa_amount0 a) fa ra
  /\ w_log wb = w_log w ++ swap_movements b pb (sa_amount0 b) fb rb
  /\ 0 < pa < pb.
Proof.
  exists (run wF []), (req QuoteToBase 2 1000000000 99000000000 1700000000), (req QuoteToBase 2 2000000000 99000000000 1700000000).
  eexists _, _, _, TQuote, 0, _, TQuote, 0.
  split; [apply reachF|]. split; [apply req_terms|]. split; [apply flatF; reflexivity|].
  split; [reflexivity|]. split; [reflexivity|]. split; [vm_compute; congruence|].
  split; [vm_compute; reflexivity|]. split; [vm_compute; reflexivity|].
  split; [vm_compute; reflexivity|]. split; [vm_compute; reflexivity|]. vm_compute; split; reflexivity.
Qed.

Print Assumptions C54_more_out_costs_more.
Print Assumptions C72_waiting_buys_no_less.
Print Assumptions C72_waiting_costs_no_more.
