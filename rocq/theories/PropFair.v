(** * C65: a trade gets what the curve says, up to a few units of rounding. *)
From Coq Require Import ZArith QArith Qround List Bool Lia ZifyBool Lqa.
From Verif Require Import Base MathModel CurveModel FeeModel ConfigModel PoolModel TxModel
  SystemModel Fixtures Spec Lib CurveProofs CurveLoops Potential CalcProofs ConfigProofs FeeProofs
  SwapProofs InvProofs InvOps InvReach FixturesReach PropSwap Steps Walks PropTrade.
Import ListNotations.
Open Scope Z_scope.
#[local] Arguments Z.pow : simpl never.
#[local] Arguments Z.testbit : simpl never.

(** ** Walks against global potentials *)

(** [A] and [B] are potentials of the whole walk that agree with those of every segment. *)
Fixpoint agree (A B : Z -> Q) (lo : Z) (l : list seg) : Prop :=
  match l with
  | [] => True
  | s :: rest =>
      (forall a b, lo <= a -> a <= b -> b <= g_end s ->
         (A b - A a == g_cost s b - g_cost s a /\ B b - B a == g_gain s b - g_gain s a)%Q)
      /\ agree A B (g_end s) rest
  end.
Definition rises (A : Z -> Q) : Prop := forall a b, a <= b -> (A a <= A b)%Q.

Lemma floor_gt q : (q - 1 <= inject_Z (Qfloor q))%Q.
Proof. pose proof (Qlt_floor q) as H. rewrite inject_Z_plus in H. change (inject_Z 1) with 1%Q in H. lra. Qed.
Lemma ceil_lt q : (inject_Z (Qceiling q) <= q + 1)%Q.
Proof.
  unfold Qceiling. pose proof (floor_gt (- q)%Q) as H. rewrite inject_Z_opp. lra.
Qed.

Definition cnt (l : list seg) : Q := inject_Z (Z.of_nat (length l)).
Lemma cnt_cons s l : (cnt (s :: l) == 1 + cnt l)%Q.
Proof. unfold cnt. cbn [length]. rewrite Nat2Z.inj_succ. unfold Z.succ. rewrite inject_Z_plus. change (inject_Z 1) with 1%Q. ring. Qed.
Lemma cnt_nonneg l : (0 <= cnt l)%Q.
Proof. unfold cnt. change 0%Q with (inject_Z 0). apply inj_le. lia. Qed.

Lemma takes_tight stop A B : rises A -> rises B -> forall l lo pos x pos' left out,
  takes stop l pos x pos' left out -> agree A B lo l -> lo <= pos ->
  (inject_Z (x - left) <= A (pos' + 1)%Z - A pos + cnt l
   /\ B pos' - B pos - cnt l <= inject_Z out)%Q.
Proof.
  intros RA RB l lo pos x pos' left out H. revert lo. induction H; intros lo AG LO.
  - pose proof (RA pos (pos + 1) ltac:(lia)). replace (x - x) with 0 by lia.
    pose proof (cnt_nonneg []). change (inject_Z 0) with 0%Q. split; lra.
  - destruct AG as (AG1 & AG2). pose proof (cnt_cons s rest) as C.
    destruct (Z_le_gt_dec stop pos) as [S|S].
    + apply takes_stopped in H0; auto. destruct H0 as (-> & -> & ->).
      pose proof (RA pos (pos + 1) ltac:(lia)). replace (x - x) with 0 by lia.
      pose proof (cnt_nonneg rest). change (inject_Z 0) with 0%Q. split; lra.
    + destruct (IHtakes (g_end s) AG2 ltac:(lia)) as (I1 & I2). split; lra.
  - destruct AG as (AG1 & AG2). pose proof (cnt_cons s rest) as C. pose proof (cnt_nonneg rest) as C0.
    destruct (AG1 pos (pos' + 1) LO ltac:(lia) ltac:(unfold e in *; lia)) as (E1 & _).
    destruct (AG1 pos pos' LO ltac:(lia) ltac:(unfold e in *; lia)) as (_ & E2).
    rewrite Z.sub_0_r. subst out. pose proof (floor_gt (g_gain s pos' - g_gain s pos)). split; lra.
  - destruct AG as (AG1 & AG2). pose proof (cnt_cons s rest) as C.
    destruct (AG1 pos e LO ltac:(lia) ltac:(unfold e; lia)) as (E1 & E2).
    pose proof (ceil_lt (g_cost s e - g_cost s pos)) as K1.
    pose proof (floor_gt (g_gain s e - g_gain s pos)) as K2.
    destruct (Z_le_gt_dec stop e) as [S|S].
    + apply takes_stopped in H1; auto. destruct H1 as (-> & -> & ->).
      pose proof (RA e (e + 1) ltac:(lia)). pose proof (cnt_nonneg rest).
      replace (x - (x - Qceiling (g_cost s e - g_cost s pos))) with (Qceiling (g_cost s e - g_cost s pos)) by lia.
      rewrite Z.add_0_r. split; lra.
    + destruct (IHtakes (g_end s) AG2 ltac:(unfold e in *; lia)) as (I1 & I2).
      rewrite inject_Z_plus.
      replace (x - left) with (Qceiling (g_cost s e - g_cost s pos) + (x - Qceiling (g_cost s e - g_cost s pos) - left)) by lia.
      rewrite inject_Z_plus. split; lra.
Qed.

Lemma gives_tight A B : rises A -> rises B -> forall l lo pos y pos' left cost,
  gives l pos y pos' left cost -> agree A B lo l -> lo <= pos -> 0 <= y ->
  (inject_Z cost <= A pos' - A pos + cnt l
   /\ B (pos' - 1)%Z - B pos - cnt l <= inject_Z (y - left))%Q.
Proof.
  intros RA RB l lo pos y pos' left cost H. revert lo. induction H; intros lo AG LO LY.
  - pose proof (RB (pos - 1) pos ltac:(lia)). replace (y - y) with 0 by lia.
    pose proof (cnt_nonneg []). change (inject_Z 0) with 0%Q. split; lra.
  - destruct AG as (AG1 & AG2). pose proof (cnt_cons s rest) as C.
    destruct (IHgives (g_end s) AG2 ltac:(lia) LY) as (I1 & I2). split; lra.
  - destruct AG as (AG1 & AG2). pose proof (cnt_cons s rest) as C. pose proof (cnt_nonneg rest) as C0.
    destruct (AG1 pos pos' LO ltac:(lia) ltac:(lia)) as (E1 & _).
    rewrite Z.sub_0_r. subst cost. pose proof (ceil_lt (g_cost s pos' - g_cost s pos)). split; [lra|].
    destruct H2 as [->|H2].
    + pose proof (RB (pos - 1) pos ltac:(lia)). apply inj_le in LY. change (inject_Z 0) with 0%Q in LY. lra.
    + destruct (Z.eq_dec pos' pos) as [->|NE].
      { pose proof (RB (pos - 1) pos ltac:(lia)). apply inj_le in LY. change (inject_Z 0) with 0%Q in LY. lra. }
      destruct (AG1 pos (pos' - 1) LO ltac:(lia) ltac:(lia)) as (_ & E2). lra.
  - destruct AG as (AG1 & AG2). pose proof (cnt_cons s rest) as C.
    destruct (AG1 pos (g_end s) LO ltac:(lia) ltac:(lia)) as (E1 & E2).
    pose proof (ceil_lt (g_cost s (g_end s) - g_cost s pos)) as K1.
    pose proof (floor_gt (g_gain s (g_end s) - g_gain s pos)) as K2.
    destruct (IHgives (g_end s) AG2 ltac:(lia) ltac:(lia)) as (I1 & I2).
    rewrite inject_Z_plus.
    replace (y - left) with (Qfloor (g_gain s (g_end s) - g_gain s pos) + (y - Qfloor (g_gain s (g_end s) - g_gain s pos) - left)) by lia.
    rewrite inject_Z_plus. split; lra.
Qed.

(** A walk that ends before [stop] has spent everything. *)
Fixpoint last_end (d : Z) (l : list seg) : Z :=
  match l with [] => d | s :: rest => last_end (g_end s) rest end.
Lemma takes_spent stop l : forall d pos x pos' left out,
  takes stop l pos x pos' left out -> d <= pos -> stop <= last_end d l -> pos' < stop -> left = 0.
Proof.
  intros d pos x pos' left out H. revert d. induction H; intros d D L S; simpl in L.
  - lia.
  - destruct (Z_le_gt_dec stop pos) as [SP|SP].
    + apply takes_stopped in H0; auto. lia.
    + apply (IHtakes (g_end s)); auto; lia.
  - reflexivity.
  - destruct (Z_le_gt_dec stop e) as [SP|SP].
    + apply takes_stopped in H1; auto. unfold e in *. lia.
    + apply (IHtakes (g_end s)); auto; unfold e in *; lia.
Qed.

(** ** The potentials are the exact areas *)

(** The exact quote and base amounts of the curve between the start price and a price. *)
Definition exact_quote (c : config) (x : Z) : Q := inject_Z (quote_area (c_start c) (curve_points c) x) / inject_Z (2 ^ 128).
Definition exact_base (c : config) (x : Z) : Q := base_area (c_start c) (curve_points c) x.

Lemma quote_diff c l a b : curve_ok c (curve_points c) -> inseg (c_start c) (curve_points c) l a b ->
  (exact_quote c b - exact_quote c a == linQ l b - linQ l a)%Q.
Proof.
  intros K I. apply quote_area_inseg in I; [|apply (co_wf _ _ K)]. unfold exact_quote, linQ. rewrite pow128.
  assert (E : inject_Z (quote_area (c_start c) (curve_points c) b) == inject_Z (quote_area (c_start c) (curve_points c) a) + inject_Z (l * b) - inject_Z (l * a)).
  { rewrite <- inject_Z_plus. unfold Qminus. rewrite <- inject_Z_opp, <- inject_Z_plus. apply inject_Z_injective. lia. }
  rewrite E. field. discriminate.
Qed.

Lemma base_diff c l a b : curve_ok c (curve_points c) -> inseg (c_start c) (curve_points c) l a b ->
  (exact_base c b - exact_base c a == invQ l a - invQ l b)%Q.
Proof.
  intros K I. apply base_area_inseg in I; [|apply (co_wf _ _ K)]. unfold exact_base, invQ. rewrite I. unfold Qdiv. ring.
Qed.

Lemma quote_rises c : curve_ok c (curve_points c) -> rises (exact_quote c).
Proof.
  intros K a b L. unfold exact_quote. apply (quote_area_mono (c_start c) (curve_points c)) in L; [|apply (co_wf _ _ K)].
  apply inj_le in L. unfold Qdiv. apply Qmult_le_compat_r; [exact L|]. vm_compute. discriminate.
Qed.
Lemma base_rises c : curve_ok c (curve_points c) -> rises (exact_base c).
Proof. intros K a b L. apply base_area_mono; [apply (co_start _ _ K)|apply (co_wf _ _ K)|exact L]. Qed.

Definition costA (c : config) (d : direction) (x : Z) : Q :=
  match d with QuoteToBase => exact_quote c x | BaseToQuote => (- exact_base c (- x))%Q end.
Definition gainB (c : config) (d : direction) (x : Z) : Q :=
  match d with QuoteToBase => exact_base c x | BaseToQuote => (- exact_quote c (- x))%Q end.

Lemma costA_rises c d : curve_ok c (curve_points c) -> rises (costA c d).
Proof.
  intros K a b L. destruct d; simpl; [|apply quote_rises; auto].
  pose proof (base_rises c K (- b) (- a) ltac:(lia)). lra.
Qed.
Lemma gainB_rises c d : curve_ok c (curve_points c) -> rises (gainB c d).
Proof.
  intros K a b L. destruct d; simpl; [|apply base_rises; auto].
  pose proof (quote_rises c K (- b) (- a) ltac:(lia)). lra.
Qed.

Lemma bsegs_agree c curve : forall low, curve_ok c (curve_points c) ->
  (forall L a b, inseg low curve L a b -> inseg (c_start c) (curve_points c) L a b) ->
  agree (exact_quote c) (exact_base c) low (bsegs curve).
Proof.
  induction curve as [|[p l] rest IH]; intros low K I; simpl; [auto|]. split.
  - intros a b A B E. assert (J : inseg (c_start c) (curve_points c) l a b) by (apply I; simpl; left; lia).
    rewrite (quote_diff _ _ _ _ K J), (base_diff _ _ _ _ K J). split; [reflexivity|ring].
  - apply IH; auto. intros. apply I. simpl. right. assumption.
Qed.

Lemma ssegs_agree c l0 segs : forall top, curve_ok c (curve_points c) ->
  desc (c_start c) (curve_points c) (c_start c) l0 segs top ->
  agree (costA c BaseToQuote) (gainB c BaseToQuote) (- top) (ssegs segs (c_start c) l0).
Proof.
  assert (G : forall l p top a b, curve_ok c (curve_points c) -> inseg (c_start c) (curve_points c) l p top ->
    - top <= a -> a <= b -> b <= - p ->
    (costA c BaseToQuote b - costA c BaseToQuote a == invQ l (- b) - invQ l (- a)
     /\ gainB c BaseToQuote b - gainB c BaseToQuote a == linQ l b - linQ l a)%Q).
  { intros l p top a b K I A B E.
    assert (J : inseg (c_start c) (curve_points c) l (- b) (- a)) by (eapply inseg_sub; [exact I|lia|lia|lia]).
    pose proof (quote_diff _ _ _ _ K J). pose proof (base_diff _ _ _ _ K J). simpl.
    assert (N : forall x, (linQ l (- x) == - linQ l x)%Q).
    { intros x. unfold linQ. replace (l * - x) with (- (l * x)) by ring. rewrite inject_Z_opp. unfold Qdiv. ring. }
    rewrite !N in H. split; lra. }
  induction segs as [|[[p l] l'] rest IH]; intros top K D; simpl in D |- *.
  - split; [|exact I]. intros a b A B E. eapply G; eauto.
  - destruct ((p =? 0) || (l =? 0)) eqn:Z0.
    + destruct D as [(A & B)|(A & B & C & D & E)]; [|lia]. auto.
    + destruct D as [(A & B)|(A & B & C & D & E)]; [lia|]. simpl. split.
      * intros a b LA LB LE. destruct D as [[D _]|D]; [eapply G; eauto|].
        assert (a = b) by lia. subst b. split; ring.
      * apply IH; auto.
Qed.

Lemma walk_agree c d : curve_ok c (curve_points c) ->
  agree (costA c d) (gainB c d) (walk_low c d) (walk_segs c d).
Proof.
  intros K. destruct (curve_ok_first _ _ K) as (p0 & rest & Ecv & Hl0). pose proof K as [S [n P] NE W M1 M2 MX LQ].
  destruct d; simpl.
  - apply ssegs_agree; auto. rewrite P. apply (desc_curve _ _ n p0 _ rest S Ecv W).
  - apply bsegs_agree; auto.
Qed.

(** How many segments there are. *)
Definition used (s : Z * Z * Z) : bool := let '(p, l, _) := s in negb ((p =? 0) || (l =? 0)).
Lemma ssegs_length segs start l0 : length (ssegs segs start l0) = S (length (filter used segs)).
Proof.
  induction segs as [|[[p l] l'] rest IH]; [reflexivity|]. cbn [ssegs filter used].
  destruct ((p =? 0) || (l =? 0)); simpl; rewrite IH; reflexivity.
Qed.
Lemma segments_used cv n : (length (filter used (segments (cv ++ repeat (0%Z, 0%Z) n))) <= length cv)%nat.
Proof.
  induction cv as [|[p l] rest IH].
  - simpl. rewrite segments_repeat. generalize (n - 1)%nat. intros m.
    assert (E : filter used (repeat (0, 0, 0) m) = []) by (induction m; simpl; auto). rewrite E. simpl. lia.
  - cbn [app]. destruct (rest ++ repeat (0, 0) n) as [|[p' l'] r] eqn:E; [simpl; lia|].
    change (segments ((p, l) :: (p', l') :: r)) with ((p, l, l') :: segments ((p', l') :: r)).
    cbn [filter]. destruct (used (p, l, l')); cbn [length]; lia.
Qed.
Lemma filter_rev_length (A : Type) (f : A -> bool) l : length (filter f (rev l)) = length (filter f l).
Proof.
  induction l as [|x l IH]; [reflexivity|]. simpl. rewrite filter_app, app_length, IH. simpl.
  destruct (f x); simpl; lia.
Qed.
Lemma walk_length c d : curve_ok c (curve_points c) ->
  (length (walk_segs c d) <= S (length (curve_points c)))%nat.
Proof.
  intros K. destruct K as [_ [n P] _ _ _ _ _ _]. destruct d; simpl.
  - rewrite ssegs_length, filter_rev_length, P. pose proof (segments_used (curve_points c) n) as U. unfold point in *. lia.
  - unfold bsegs. rewrite map_length. lia.
Qed.

Lemma walk_end c d : curve_ok c (curve_points c) -> walk_stop c d <= last_end (walk_low c d) (walk_segs c d).
Proof.
  intros K. pose proof K as [S [n P] NE W M1 M2 MX LQ]. destruct d; simpl.
  - clear. generalize (- top_price (c_start c) (curve_points c)) as z. generalize (rev (segments (c_curve c))) as l.
    induction l as [|[[p l0] l'] rest IH]; intros z; simpl; [lia|].
    destruct ((p =? 0) || (l0 =? 0)); simpl; apply IH.
  - assert (E : forall cv z, last_end z (bsegs cv) = top_price z cv).
    { induction cv as [|[p l] rest IH]; intros z; simpl; [reflexivity|]. apply IH. }
    rewrite E. exact M2.
Qed.

(** One step of the price is worth at most one unit of quote. *)
Lemma quote_step c x : curve_ok c (curve_points c) -> (exact_quote c (x + 1)%Z <= exact_quote c x + 1)%Q.
Proof.
  intros K. pose proof K as [S [n P] NE W M1 M2 MX LQ].
  assert (E : quote_area (c_start c) (curve_points c) (x + 1) <= quote_area (c_start c) (curve_points c) x + Q128).
  { clear - W LQ. revert W LQ. generalize (c_start c) as low. induction (curve_points c) as [|[p l] rest IH]; intros low W LQ.
    - simpl. unfold Q128. lia.
    - cbn [quote_area]. destruct W as (W1 & W2 & W3). inversion LQ as [|? ? L1 L2]; subst. simpl in L1. specialize (IH p W3 L2).
      assert (Q : u128ok l -> l < Q128) by (unfold u128ok, U128_MAX, Q128; lia). specialize (Q L1).
      destruct (Z_le_gt_dec p x) as [A|A].
      + rewrite (covered_above low p x), (covered_above low p (x + 1)) by lia. lia.
      + assert (R : quote_area p rest (x + 1) = 0 /\ quote_area p rest x = 0)
          by (split; apply quote_area_below; auto; lia).
        destruct R as (-> & ->).
        assert (covered low p (x + 1) <= covered low p x + 1) by (unfold covered; lia).
        assert (l * covered low p (x + 1) <= l * (covered low p x + 1)) by (apply Z.mul_le_mono_nonneg_l; lia).
        lia. }
  apply inj_le in E. rewrite inject_Z_plus in E. unfold exact_quote. rewrite pow128.
  apply Qle_shift_div_r; [reflexivity|].
  assert (T : ((inject_Z (quote_area (c_start c) (curve_points c) x) / inject_Z Q128 + 1) * inject_Z Q128
     == inject_Z (quote_area (c_start c) (curve_points c) x) + inject_Z Q128)%Q) by (field; discriminate).
  rewrite T. exact E.
Qed.

(** ** What the curve computed for a trade *)

Definition gross_out (fm : fee_mode) (r : swap_result) : Z :=
  sr_output r + (if fm_on_input fm then 0 else sr_trading r + sr_protocol r + sr_referral r).

Definition from_curve (c : config) (price : Z) (d : direction) (mode : Z) (fm : fee_mode) (r : swap_result) : Prop :=
  if mode =? 2 then
    exists s, 0 <= gross_out fm r /\ fo_of_direction c price d (gross_out fm r) = Ok s
      /\ sr_excluded r = fo_in s /\ sr_price r = fo_price s
  else
    exists s net, 0 <= net /\ fi_of_direction c price d net = Ok s
      /\ sr_excluded r = net - fi_left s /\ gross_out fm r = fi_out s /\ sr_price r = fi_price s.

Lemma process_walk c p mode x y fm d cur el r :
  cfg_ok c -> fees_ok (c_fees c) -> c_start c <= p_price p <= c_mig_price c -> 0 <= x ->
  process_swap c p mode x y fm d cur el = Ok r ->
  from_curve c (p_price p) d mode fm r.
Proof.
  intros K F Hp Ha H. unfold process_swap in H. unfold from_curve, gross_out.
  destruct (mode =? 0) eqn:M0; [|destruct (mode =? 1) eqn:M1; [|destruct (mode =? 2) eqn:M2; [|discriminate]]];
  apply bind_ok in H; destruct H as (r' & R & H);
  apply bind_ok in H; destruct H as (u & _ & H); apply Ok_inj in H; subst r'.
  - replace (mode =? 2) with false by lia. unfold swap_exact_in in R.
    apply bind_ok in R. destruct R as (num & N & R).
    pose proof (num_included_bounds _ _ _ _ _ _ _ F Ha N) as NB.
    apply bind_ok in R. destruct R as (f & Ff & R).
    apply bind_ok in R. destruct R as (s & S & R).
    apply bind_ok in R. destruct R as (u2 & L & R). apply require_ok in L.
    apply bind_ok in R. destruct R as (g & G & R). apply Ok_inj in R. subst r.
    cbn [sr_output sr_excluded sr_price sr_trading sr_protocol sr_referral].
    exists s, (foa_amount f). destruct (fm_on_input fm).
    + apply fee_on_amount_ok in Ff. destruct Ff as (fee & FE & FL & FA & FP).
      apply Ok_inj in G. subst g. cbn [foa_amount]. split; [lia|]. split; [exact S|]. split; [lia|]. split; [lia|reflexivity].
    + apply Ok_inj in Ff. subst f. cbn [foa_amount] in *.
      pose proof (fi_moves _ _ _ _ _ _ (ok_curve _ K) Hp Ha S) as (_ & _ & _ & _ & P4).
      apply fee_on_amount_ok in G. destruct G as (fee & FE & FL & FA & FP).
      pose proof (fee_le_gross (fi_out s) num P4 NB) as FB. rewrite <- FE in FB.
      apply parts_sum in FP; [|lia]. split; [lia|]. split; [exact S|]. split; [lia|]. split; [lia|reflexivity].
  - replace (mode =? 2) with false by lia. unfold swap_partial in R.
    apply bind_ok in R. destruct R as (num & N & R).
    pose proof (num_included_bounds _ _ _ _ _ _ _ F Ha N) as NB.
    apply bind_ok in R. destruct R as (f & Ff & R).
    apply bind_ok in R. destruct R as (s & S & R).
    apply bind_ok in R. destruct R as ([[[[incl act] tr] pr] rf] & A & R).
    apply bind_ok in R. destruct R as (g & G & R). apply Ok_inj in R. subst r.
    cbn [sr_output sr_excluded sr_price sr_trading sr_protocol sr_referral].
    assert (ACT : act = foa_amount f - fi_left s).
    { destruct (negb (fi_left s =? 0)) eqn:NL.
      - apply bind_ok in A. destruct A as (actual & AC & A). apply ssub_ok in AC. destruct AC as (AC & _).
        destruct (fm_on_input fm).
        + apply bind_ok in A. destruct A as (num' & N' & A).
          apply bind_ok in A. destruct A as ([i fee'] & I & A).
          apply bind_ok in A. destruct A as ([[t1 t2] t3] & SP & A).
          apply Ok_inj in A. injection A as _ <- _ _ _. exact AC.
        + apply Ok_inj in A. injection A as _ <- _ _ _. exact AC.
      - apply Ok_inj in A. injection A as _ <- _ _ _. lia. }
    exists s, (foa_amount f). destruct (fm_on_input fm).
    + apply fee_on_amount_ok in Ff. destruct Ff as (fee & FE & FL & FA & FP).
      apply Ok_inj in G. subst g. cbn [foa_amount]. split; [lia|]. split; [exact S|]. split; [exact ACT|]. split; [lia|reflexivity].
    + apply Ok_inj in Ff. subst f. cbn [foa_amount] in *.
      pose proof (fi_moves _ _ _ _ _ _ (ok_curve _ K) Hp Ha S) as (_ & _ & _ & _ & P4).
      apply fee_on_amount_ok in G. destruct G as (fee & FE & FL & FA & FP).
      pose proof (fee_le_gross (fi_out s) num P4 NB) as FB. rewrite <- FE in FB.
      apply parts_sum in FP; [|lia]. split; [lia|]. split; [exact S|]. split; [exact ACT|]. split; [lia|reflexivity].
  - unfold swap_exact_out in R.
    apply bind_ok in R. destruct R as ([[[gross tr] pr] rf] & A & R).
    apply bind_ok in R. destruct R as (s & S & R).
    apply bind_ok in R. destruct R as (u2 & L & R).
    apply bind_ok in R. destruct R as ([[[incl tr'] pr'] rf'] & B & R). apply Ok_inj in R. subst r.
    cbn [sr_output sr_excluded sr_price sr_trading sr_protocol sr_referral].
    assert (G : 0 <= gross /\ gross = x + (if fm_on_input fm then 0 else tr' + pr' + rf')).
    { destruct (fm_on_input fm).
      - apply Ok_inj in A. injection A as <- _ _ _. lia.
      - apply Ok_inj in B. injection B as _ <- <- <-.
        apply bind_ok in A. destruct A as (num & N & A).
        pose proof (num_excluded_bounds _ _ _ _ _ _ _ F N) as NB.
        apply bind_ok in A. destruct A as ([i fee] & I & A).
        apply included_fee_ok in I; try lia. destruct I as (_ & I1 & I2 & _).
        apply bind_ok in A. destruct A as ([[t1 t2] t3] & SP & A).
        apply split_fees_ok in SP. apply parts_sum in SP; [|lia].
        apply Ok_inj in A. injection A as <- <- <- <-. lia. }
    destruct G as (G0 & G1). rewrite <- G1. exists s. auto.
Qed.

(** ** C65 *)

(** The step below the start price, at the liquidity of the first segment. *)
Definition step_below (c : config) : Q := (invQ (first_liquidity c) (c_start c - 1)%Z - invQ (first_liquidity c) (c_start c))%Q.

Lemma fair_walk c price d mode fm r :
  curve_ok c (curve_points c) -> 1 < c_start c -> c_start c <= price <= c_mig_price c ->
  from_curve c price d mode fm r ->
  let k := inject_Z (Z.of_nat (length (curve_points c)) + 1) in
  let p := walk_pos d price in let p' := walk_pos d (sr_price r) in
  if mode =? 2 then
    (inject_Z (sr_excluded r) <= costA c d p' - costA c d p + k
     /\ gainB c d (p' - 1)%Z - gainB c d p - k <= inject_Z (gross_out fm r))%Q
  else
    (inject_Z (sr_excluded r) <= costA c d (p' + 1)%Z - costA c d p
        + (match d with QuoteToBase => 0 | BaseToQuote => if (sr_price r =? c_start c)%Z then step_below c else 0 end) + k
     /\ gainB c d p' - gainB c d p - k <= inject_Z (gross_out fm r))%Q.
Proof.
  intros CK S1 Hp H k p p'. unfold from_curve in H.
  pose proof (costA_rises c d CK) as RA. pose proof (gainB_rises c d CK) as RB.
  pose proof (walk_agree c d CK) as AG. pose proof (walk_low_pos c d price CK Hp) as LO.
  assert (KK : (cnt (walk_segs c d) <= k)%Q).
  { unfold cnt, k. apply inj_le. pose proof (walk_length c d CK). lia. }
  destruct (mode =? 2).
  - destruct H as (s & G0 & FO & EX & PR).
    pose proof (fo_gives _ _ _ _ _ CK Hp G0 FO) as T. rewrite <- PR, <- EX in T.
    destruct (gives_tight _ _ RA RB _ _ _ _ _ _ _ T AG LO G0) as (T1 & T2).
    rewrite Z.sub_0_r in T2. unfold p, p'. split; lra.
  - destruct H as (s & net & N0 & FI & EX & GR & PR).
    assert (W : exists left, takes (walk_stop c d) (walk_segs c d) p net (walk_pos d (fi_price s)) left (fi_out s)
      /\ fi_left s <= left /\ (inject_Z (left - fi_left s) <= step_below c)%Q
      /\ (d = QuoteToBase -> left = fi_left s)).
    { destruct (fi_takes _ _ _ _ _ CK Hp N0 FI) as (left & (LL & AB) & T). specialize (AB S1). fold (step_below c) in AB.
      destruct d; [exists left; split; [exact T|split; [exact LL|split; [exact AB|discriminate]]]|].
      pose proof (buy_takes _ _ _ _ CK Hp N0 FI) as TB. exists (fi_left s). split; [exact TB|]. split; [lia|].
      split; [|reflexivity]. rewrite Z.sub_diag. change (inject_Z 0) with 0%Q.
      assert (0 <= inject_Z (left - fi_left s))%Q by (change 0%Q with (inject_Z 0); apply inj_le; lia). lra. }
    destruct W as (left & T & LL & AB & BUY).
    pose proof (fi_moves _ _ _ _ _ _ CK Hp N0 FI) as (_ & PB & _ & L0 & _).
    rewrite <- PR, <- GR in T. rewrite <- PR in PB.
    destruct (takes_tight _ _ _ RA RB _ _ _ _ _ _ _ T AG LO) as (T1 & T2).
    fold p' in T1, T2. split; [|lra].
    assert (EQ : (inject_Z (sr_excluded r) == inject_Z (net - left) + inject_Z (left - fi_left s))%Q).
    { rewrite <- inject_Z_plus, EX. apply inject_Z_injective. lia. }
    rewrite EQ. clear EQ.
    assert (Z0 : p' < walk_stop c d -> (inject_Z (left - fi_left s) <= 0)%Q).
    { intros X. assert (left = 0) by (eapply takes_spent; [exact T|exact LO|apply walk_end; auto|exact X]).
      change 0%Q with (inject_Z 0). apply inj_le. lia. }
    destruct d.
    + destruct (sr_price r =? c_start c) eqn:SP; [lra|].
      specialize (Z0 ltac:(unfold p'; simpl; lia)). lra.
    + specialize (BUY eq_refl). subst left. rewrite Z.sub_diag. change (inject_Z 0) with 0%Q. lra.
Qed.

(** In every mode, one price step is the resolution of the result:
    - a buyer pays at most [k] quote units more than the exact quote amount between the two prices,
      and receives (before an output fee) at least the exact base amount less [k] units, where an
      exact-output trade may stop one price step further than needed;
    - a seller receives at least the exact quote amount less [k] units, and delivers at most the
      exact base amount plus [k] units, where an exact-input trade may fall short of one more price
      step ([step_below] is that step when the trade ends at the start price).
    [k] is the number of curve points plus two. *)
Theorem C65_fair_execution : forall w a w',
  reachable w -> exec w (OSwap a) = Ok w' ->
  let c := w_config w in
  let P := p_price (w_pool w) in
  let P' := p_price (w_pool w') in
  let k := inject_Z (Z.of_nat (length (curve_points c)) + 2) in
  match sa_dir a with
  | QuoteToBase =>
      (inject_Z (p_quote (w_pool w') - p_quote (w_pool w)) <= exact_quote c P' - exact_quote c P + k
       /\ exact_base c (if (sa_mode a =? 2)%Z then P' - 1 else P')%Z - exact_base c P - k
            <= inject_Z (p_base (w_pool w) - p_base (w_pool w')))%Q
  | BaseToQuote =>
      (exact_quote c P - exact_quote c P' - k <= inject_Z (p_quote (w_pool w) - p_quote (w_pool w'))
       /\ inject_Z (p_base (w_pool w') - p_base (w_pool w))
            <= exact_base c P - exact_base c (if (sa_mode a =? 2)%Z then P' else P' - 1)%Z
               + (if (P' =? c_start c)%Z then step_below c else 0) + k)%Q
  end.
Proof.
  intros w a w' R H c P P' k.
  destruct (reach_swap _ _ _ R H) as (K & F & HA & _ & r & fm & num & fee & gross
    & pf & cf & cur & p1 & E & PRE & PS).
  destruct (effect_applied _ _ _ _ _ _ _ _ _ _ _ E) as (p2 & AP & SM).
  destruct SM as (SP & SB & SQ & _).
  pose proof (se_facts _ _ _ _ _ _ _ _ _ _ _ E) as SF.
  pose proof (reachable_inv _ R) as I.
  destruct (pre_swap_tracker _ _ _ _ PRE) as (vt & -> & PT).
  assert (GR : gross_out fm r = gross).
  { unfold gross_out. rewrite (sf_out _ _ _ _ _ _ _ _ SF). pose proof (sf_parts _ _ _ _ _ _ _ _ SF) as PA.
    apply parts_sum in PA; [|apply (sf_fee_nonneg _ _ _ _ _ _ _ _ SF)]. destruct (fm_on_input fm); lia. }
  apply process_walk in PS; auto; [|exact (iv_price _ I)].
  change (p_price (set_tracker (w_pool w) vt)) with (p_price (w_pool w)) in PS.
  assert (S1 : 1 < c_start c).
  { pose proof (ok_start_min _ K) as M. unfold MIN_SQRT_PRICE in M. unfold c. lia. }
  pose proof (ok_curve _ K) as CK.
  pose proof (fair_walk _ _ _ _ _ _ CK S1 (iv_price _ I) PS) as G. cbv zeta in G. rewrite GR in G.
  assert (PR : P' = sr_price r) by (unfold P'; rewrite SP; exact (ap_price _ _ _ _ _ _ _ _ _ AP)).
  rewrite <- PR in G. rewrite SB, SQ, (ap_base _ _ _ _ _ _ _ _ _ AP), (ap_quote _ _ _ _ _ _ _ _ _ AP).
  fold c P in G |- *.
  assert (EK : (k == inject_Z (Z.of_nat (length (curve_points c)) + 1) + 1)%Q).
  { unfold k. change 1%Q with (inject_Z 1). rewrite <- inject_Z_plus. apply inject_Z_injective. lia. }
  assert (D1 : forall x y, x + y - x = y) by (intros; lia).
  assert (D2 : forall x y, x - (x + - y) = y) by (intros; lia).
  set (k1 := inject_Z (Z.of_nat (length (curve_points c)) + 1)) in *. clearbody k1.
  assert (QS : forall x, (exact_quote c (x + 1)%Z <= exact_quote c x + 1)%Q) by (intros; apply quote_step; exact CK).
  assert (ST : (0 <= step_below c)%Q).
  { destruct (curve_ok_first _ _ CK) as (p0 & rest & Ecv & Hl0).
    apply (absorbs_nothing (first_liquidity c) (c_start c) 0); auto; lia. }
  destruct (sa_dir a) eqn:D; cbn [fi_db fi_dq]; rewrite ?D1, ?D2.
  - unfold costA, gainB, walk_pos in G. 
    destruct (sa_mode a =? 2); destruct G as (G1 & G2);
    [replace (- (- P' - 1)) with (P' + 1) in G2 by lia|replace (- (- P' + 1)) with (P' - 1) in G1 by lia];
    rewrite !Z.opp_involutive in *.
    + pose proof (QS P').
      split; [lra|]. destruct (P' =? c_start c); lra.
    + split; [lra|]. destruct (P' =? c_start c); lra.
  - unfold costA, gainB, walk_pos in G. pose proof (QS P').
    destruct (sa_mode a =? 2); destruct G as (G1 & G2);
    split; lra.
Qed.

(** A purchase across both segments and a sale of everything bought, each within the bounds; the
    prices move and the shortfall is not zero. *)
Example C65_case_buy : exists w a w',
  reachable w /\ exec w (OSwap a) = Ok w' /\ sa_dir a = QuoteToBase
  /\ length (curve_points (w_config w)) = 2%nat
  /\ 5 * 2 ^ 64 < p_price (w_pool w') /\ p_price (w_pool w) < 5 * 2 ^ 64
  /\ (exact_quote (w_config w) (p_price (w_pool w')) - exact_quote (w_config w) (p_price (w_pool w))
       < inject_Z (p_quote (w_pool w') - p_quote (w_pool w)))%Q.
Proof.
  exists (run wF []), (req QuoteToBase 0 120000000007 0 1700000000). eexists.
  split; [apply reachF|]. split; [vm_compute; reflexivity|]. split; [reflexivity|].
  split; [reflexivity|]. split; [vm_compute; reflexivity|]. split; [vm_compute; reflexivity|].
  vm_compute. reflexivity.
Qed.

Definition bought : list op := [OSwap (req QuoteToBase 0 120000000007 0 1700000000)].
Example C65_case_sell : exists w a w',
  reachable w /\ exec w (OSwap a) = Ok w' /\ sa_dir a = BaseToQuote /\ sa_mode a = 2
  /\ p_price (w_pool w') < 5 * 2 ^ 64 < p_price (w_pool w).
Proof.
  exists (run wF bought), (req BaseToQuote 2 100000000000 99999999999999 1700000100). eexists.
  split; [apply reachF|]. split; [vm_compute; reflexivity|]. split; [reflexivity|].
  split; [reflexivity|]. vm_compute. split; reflexivity.
Qed.

Print Assumptions C65_fair_execution.
