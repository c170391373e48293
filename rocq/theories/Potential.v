(** * Potentials: exact quote and base areas bound what moves along the curve do. *)
From Coq Require Import ZArith QArith List Bool Lia ZifyBool Lqa Qfield.
From Verif Require Import Base MathModel CurveModel FeeModel ConfigModel PoolModel TxModel
  SystemModel Spec Lib CurveProofs CurveLoops.
Import ListNotations.
Open Scope Z_scope.
#[local] Arguments Z.pow : simpl never.

Lemma ceil_div_cdiv a b : 0 < b -> ceil_div a b = cdiv a b.
Proof.
  intros. unfold ceil_div. 
  assert (forall c, - (- a / b) <= c <-> a <= c * b).
  { intros c. pose proof (div_ge (- a) b (- c) H). nia. }
  assert (forall c, cdiv a b <= c <-> a <= c * b) by (intros; apply cdiv_le; auto).
  pose proof (H0 (cdiv a b)). pose proof (H1 (- (- a / b))). pose proof (H0 (- (- a / b))).
  pose proof (H1 (cdiv a b)). lia.
Qed.

Lemma pow128 : 2 ^ 128 = Q128. Proof. reflexivity. Qed.

Lemma covered_in low p x : low <= x -> x <= p -> covered low p x = x.
Proof. unfold covered; lia. Qed.
Lemma covered_below low p x : x <= low -> low <= p -> covered low p x = low.
Proof. unfold covered; lia. Qed.
Lemma covered_above low p x : p <= x -> low <= p -> covered low p x = p.
Proof. unfold covered; lia. Qed.
Lemma covered_range low p x : low <= p -> low <= covered low p x <= p.
Proof. unfold covered; lia. Qed.

(** ** Quote *)
Lemma quote_area_below low curve x : curve_wf low curve -> x <= low -> quote_area low curve x = 0.
Proof.
  revert low; induction curve as [|[p l] rest IH]; simpl; intros low W H; [reflexivity|].
  destruct W as (W1 & W2 & W3). rewrite covered_below by lia. rewrite IH by (auto; lia). lia.
Qed.

Lemma quote_area_inseg low curve L a b :
  curve_wf low curve -> inseg low curve L a b ->
  quote_area low curve b - quote_area low curve a = L * (b - a).
Proof.
  revert low; induction curve as [|[p l] rest IH]; simpl; intros low W H; [contradiction|].
  destruct W as (W1 & W2 & W3). destruct H as [(-> & H1 & H2 & H3)|H].
  - rewrite !covered_in by lia. rewrite !quote_area_below by (auto; lia). lia.
  - pose proof (inseg_bounds _ _ _ _ _ W3 H) as (B1 & _ & _).
    pose proof (inseg_le _ _ _ _ _ H).
    rewrite !covered_above by lia. apply IH in H; auto. lia.
Qed.

Lemma moves_quote low curve x y dq db :
  curve_wf low curve -> moves low curve x y dq db ->
  quote_area low curve y - quote_area low curve x <= dq * Q128.
Proof.
  intros W M; induction M; [lia|].
  destruct H as (L & I & H1 & H2). apply quote_area_inseg in I; auto.
  destruct (Z_le_gt_dec x y).
  - rewrite Z.max_r, Z.min_l in I by lia. lia.
  - rewrite Z.max_l, Z.min_r in I by lia. lia.
Qed.

Lemma quote_area_mono low curve x y :
  curve_wf low curve -> x <= y -> quote_area low curve x <= quote_area low curve y.
Proof.
  revert low; induction curve as [|[p l] rest IH]; simpl; intros low W H; [lia|].
  destruct W as (W1 & W2 & W3). specialize (IH p W3 H).
  assert (covered low p x <= covered low p y) by (unfold covered; lia). nia.
Qed.

Lemma quote_area_strict low curve x y :
  curve_wf low curve -> low <= x -> x < y -> y <= top_price low curve ->
  quote_area low curve x < quote_area low curve y.
Proof.
  revert low; induction curve as [|[p l] rest IH]; simpl; intros low W H1 H2 H3; [lia|].
  destruct W as (W1 & W2 & W3).
  destruct (Z_lt_ge_dec x p).
  - pose proof (quote_area_mono p rest x y W3 ltac:(lia)).
    assert (covered low p x < covered low p y) by (unfold covered; lia). nia.
  - specialize (IH p W3 ltac:(lia) H2 H3).
    assert (covered low p x <= covered low p y) by (unfold covered; lia). nia.
Qed.

(** ** Quote, rounded up per segment *)
Lemma quote_ceil_below low curve x :
  curve_wf low curve -> x <= low -> quote_area_ceil low curve x = 0.
Proof.
  revert low; induction curve as [|[p l] rest IH]; simpl; intros low W H; [reflexivity|].
  destruct W as (W1 & W2 & W3). rewrite covered_below by lia. rewrite IH by (auto; lia).
  replace (l * (low - low)) with 0 by lia. reflexivity.
Qed.

Lemma quote_ceil_inseg low curve L a b :
  curve_wf low curve -> inseg low curve L a b ->
  (L * (b - a)) / Q128 <= quote_area_ceil low curve b - quote_area_ceil low curve a
  /\ quote_area_ceil low curve b - quote_area_ceil low curve a <= cdiv (L * (b - a)) Q128.
Proof.
  revert low; induction curve as [|[p l] rest IH]; simpl; intros low W H; [contradiction|].
  destruct W as (W1 & W2 & W3). destruct H as [(-> & H1 & H2 & H3)|H].
  - rewrite !covered_in by lia. rewrite !quote_ceil_below by (auto; lia).
    rewrite !ceil_div_cdiv by reflexivity. rewrite !pow128.
    replace (L * (b - low)) with (L * (a - low) + L * (b - a)) by lia.
    pose proof (cdiv_add_le (L * (a - low)) (L * (b - a)) Q128 Q128_pos).
    pose proof (cdiv_add_ge (L * (a - low)) (L * (b - a)) Q128 Q128_pos). lia.
  - pose proof (inseg_bounds _ _ _ _ _ W3 H) as (B1 & _ & _).
    pose proof (inseg_le _ _ _ _ _ H).
    rewrite !covered_above by lia. apply IH in H; auto. lia.
Qed.

Lemma moves_quote_ceil low curve x y dq db :
  curve_wf low curve -> moves low curve x y dq db ->
  quote_area_ceil low curve y - quote_area_ceil low curve x <= dq.
Proof.
  intros W M; induction M; [lia|].
  destruct H as (L & I & H1 & H2). apply quote_ceil_inseg in I; auto.
  destruct (Z_le_gt_dec x y).
  - rewrite Z.max_r, Z.min_l in I by lia.
    assert (cdiv (L * (y - x)) Q128 <= dq) by (apply cdiv_le; [reflexivity|lia]). lia.
  - rewrite Z.max_l, Z.min_r in I by lia.
    assert (- dq <= L * (x - y) / Q128) by (apply div_ge; [reflexivity|lia]). lia.
Qed.

Lemma quote_ceil_mono low curve x y :
  curve_wf low curve -> x <= y -> quote_area_ceil low curve x <= quote_area_ceil low curve y.
Proof.
  revert low; induction curve as [|[p l] rest IH]; simpl; intros low W H; [lia|].
  destruct W as (W1 & W2 & W3). specialize (IH p W3 H).
  rewrite !ceil_div_cdiv by reflexivity.
  assert (covered low p x <= covered low p y) by (unfold covered; lia).
  assert (cdiv (l * (covered low p x - low)) (2 ^ 128) <= cdiv (l * (covered low p y - low)) (2 ^ 128))
    by (apply cdiv_mono; [reflexivity|nia]). lia.
Qed.

Lemma quote_ceil_ge low curve x :
  curve_wf low curve -> quote_area low curve x <= quote_area_ceil low curve x * Q128.
Proof.
  revert low; induction curve as [|[p l] rest IH]; simpl; intros low W; [lia|].
  destruct W as (W1 & W2 & W3). specialize (IH p W3). rewrite ceil_div_cdiv by reflexivity.
  rewrite pow128. pose proof (cdiv_ub (l * (covered low p x - low)) Q128 Q128_pos). lia.
Qed.

Lemma quote_ceil_nonneg low curve x : curve_wf low curve -> 0 <= quote_area_ceil low curve x.
Proof.
  revert low; induction curve as [|[p l] rest IH]; simpl; intros low W; [lia|].
  destruct W as (W1 & W2 & W3). specialize (IH p W3). rewrite ceil_div_cdiv by reflexivity.
  pose proof (covered_range low p x ltac:(lia)).
  assert (0 <= cdiv (l * (covered low p x - low)) (2 ^ 128)) by (apply cdiv_nonneg; [nia|reflexivity]).
  lia.
Qed.

(** ** Base, exact rationals *)
Open Scope Q_scope.

Lemma injZ_pos a : (0 < a)%Z -> 0 < inject_Z a.
Proof. intros. change 0 with (inject_Z 0). rewrite <- Zlt_Qlt. auto. Qed.

Lemma injZ_le a b : (a <= b)%Z -> inject_Z a <= inject_Z b.
Proof. intros. rewrite <- Zle_Qle. auto. Qed.

Lemma inv_le a b : 0 < a -> a <= b -> / b <= / a.
Proof.
  intros Ha Hb. assert (0 < b) by lra.
  setoid_replace (/ b) with (1 / b) by (field; lra).
  apply Qle_shift_div_r; [auto|].
  setoid_replace (/ a * b) with (b / a) by (field; lra).
  apply Qle_shift_div_l; lra.
Qed.

Lemma inv_lt a b : 0 < a -> a < b -> / b < / a.
Proof.
  intros Ha Hb. assert (0 < b) by lra.
  setoid_replace (/ b) with (1 / b) by (field; lra).
  apply Qlt_shift_div_r; [auto|].
  setoid_replace (/ a * b) with (b / a) by (field; lra).
  apply Qlt_shift_div_l; lra.
Qed.

(** The integer inequality of a step, as rationals. *)
Lemma step_base_Q L x y db :
  (0 < x)%Z -> (0 < y)%Z -> (- (db * (x * y)) <= L * (y - x))%Z ->
  - inject_Z db <= inject_Z L * (/ inject_Z x - / inject_Z y).
Proof.
  intros Hx Hy H. apply injZ_le in H.
  rewrite inject_Z_opp, !inject_Z_mult in H.
  unfold Z.sub in H. rewrite inject_Z_plus, inject_Z_opp in H.
  apply injZ_pos in Hx. apply injZ_pos in Hy.
  set (X := inject_Z x) in *. set (Y := inject_Z y) in *. set (D := inject_Z db) in *.
  set (LL := inject_Z L) in *.
  assert (HXY : 0 < X * Y) by (apply Qmult_lt_0_compat; auto).
  setoid_replace (- D) with ((- (D * (X * Y))) / (X * Y)) by (field; lra).
  apply Qle_shift_div_r; [auto|].
  setoid_replace (LL * (/ X - / Y) * (X * Y)) with (LL * (Y + - X)) by (field; lra).
  auto.
Qed.

Lemma base_area_below low curve x :
  curve_wf low curve -> (x <= low)%Z -> base_area low curve x == 0.
Proof.
  revert low; induction curve as [|[p l] rest IH]; simpl; intros low W H; [reflexivity|].
  destruct W as (W1 & W2 & W3). rewrite covered_below by lia. rewrite IH by (auto; lia).
  ring.
Qed.

Lemma base_area_inseg low curve L a b :
  curve_wf low curve -> inseg low curve L a b ->
  base_area low curve b - base_area low curve a == inject_Z L * (/ inject_Z a - / inject_Z b).
Proof.
  revert low; induction curve as [|[p l] rest IH]; simpl; intros low W H; [contradiction|].
  destruct W as (W1 & W2 & W3). destruct H as [(-> & H1 & H2 & H3)|H].
  - rewrite !covered_in by lia. rewrite !base_area_below by (auto; lia). ring.
  - pose proof (inseg_bounds _ _ _ _ _ W3 H) as (B1 & _ & _).
    pose proof (inseg_le _ _ _ _ _ H).
    rewrite !covered_above by lia. apply IH in H; auto. rewrite <- H. ring.
Qed.

Lemma moves_base low curve x y dq db :
  (0 < low)%Z -> curve_wf low curve -> moves low curve x y dq db ->
  - inject_Z db <= base_area low curve y - base_area low curve x.
Proof.
  intros Hlow W M; induction M; [change (inject_Z 0) with 0; lra|].
  destruct H as (L & I & H1 & H2).
  pose proof (inseg_bounds _ _ _ _ _ W I) as (B1 & _ & _).
  apply base_area_inseg in I; auto.
  apply step_base_Q in H2; try lia.
  rewrite inject_Z_plus.
  assert (base_area low curve y - base_area low curve x
          == inject_Z L * (/ inject_Z x - / inject_Z y)) as E.
  { destruct (Z_le_gt_dec x y).
    - rewrite Z.max_r, Z.min_l in I by lia. rewrite I. reflexivity.
    - rewrite Z.max_l, Z.min_r in I by lia.
      setoid_replace (inject_Z L * (/ inject_Z x - / inject_Z y))
        with (- (inject_Z L * (/ inject_Z y - / inject_Z x))) by ring.
      rewrite <- I. ring. }
  rewrite <- E in H2. lra.
Qed.

Lemma base_seg_mono low p l x y :
  (0 < low)%Z -> (low < p)%Z -> (0 < l)%Z -> (x <= y)%Z ->
  inject_Z l * (/ inject_Z low - / inject_Z (covered low p x))
  <= inject_Z l * (/ inject_Z low - / inject_Z (covered low p y)).
Proof.
  intros. assert (low <= covered low p x <= covered low p y)%Z by (unfold covered; lia).
  assert (/ inject_Z (covered low p y) <= / inject_Z (covered low p x)).
  { apply inv_le; [apply injZ_pos; lia|apply injZ_le; lia]. }
  apply injZ_pos in H1. rewrite !(Qmult_comm (inject_Z l)). apply Qmult_le_compat_r; lra.
Qed.

Lemma base_area_mono low curve x y :
  (0 < low)%Z -> curve_wf low curve -> (x <= y)%Z ->
  base_area low curve x <= base_area low curve y.
Proof.
  revert low; induction curve as [|[p l] rest IH]; simpl; intros low Hl W H; [lra|].
  destruct W as (W1 & W2 & W3). assert (0 < p)%Z by lia. specialize (IH p H0 W3 H).
  pose proof (base_seg_mono low p l x y Hl W1 W2 H). lra.
Qed.

Lemma base_area_strict low curve x y :
  (0 < low)%Z -> curve_wf low curve -> (low <= x)%Z -> (x < y)%Z ->
  (y <= top_price low curve)%Z ->
  base_area low curve x < base_area low curve y.
Proof.
  revert low; induction curve as [|[p l] rest IH]; simpl; intros low Hl W H1 H2 H3; [lia|].
  destruct W as (W1 & W2 & W3).
  destruct (Z_lt_ge_dec x p).
  - pose proof (base_area_mono p rest x y ltac:(lia) W3 ltac:(lia)).
    assert (0 < covered low p x < covered low p y)%Z by (unfold covered; lia).
    assert (/ inject_Z (covered low p y) < / inject_Z (covered low p x)).
    { apply inv_lt; [apply injZ_pos; lia|]. rewrite <- Zlt_Qlt. lia. }
    apply injZ_pos in W2.
    assert (inject_Z l * (/ inject_Z low - / inject_Z (covered low p x))
            < inject_Z l * (/ inject_Z low - / inject_Z (covered low p y))).
    { rewrite !(Qmult_comm (inject_Z l)). apply Qmult_lt_r; [auto|]. lra. }
    lra.
  - specialize (IH p ltac:(lia) W3 ltac:(lia) H2 H3).
    pose proof (base_seg_mono low p l x y Hl W1 W2 ltac:(lia)). lra.
Qed.

Lemma base_area_nonneg low curve x :
  (0 < low)%Z -> curve_wf low curve -> 0 <= base_area low curve x.
Proof.
  intros Hl W. pose proof (base_area_below low curve low W ltac:(lia)) as E.
  destruct (Z_le_gt_dec low x).
  - pose proof (base_area_mono low curve low x Hl W ltac:(lia)). lra.
  - rewrite base_area_below by (auto; lia). lra.
Qed.
