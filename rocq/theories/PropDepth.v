(** * C107: depth. The price of a pool moves no further than the liquidity of its curve allows for the quote tokens that
    went in or out, and no less far, up to rounding. *)
From Coq Require Import ZArith QArith Qround List Bool Lia ZifyBool Lqa.
From Verif Require Import Base MathModel CurveModel FeeModel ConfigModel PoolModel TxModel
  SystemModel Fixtures Spec SpecHist Lib CurveProofs CurveLoops Potential CalcProofs ConfigProofs FeeProofs
  SwapProofs InvProofs InvOps InvReach FixturesReach Effects Frame PropSwap PropLife PropTrade PropFair PropDrift PropSpot.
Import ListNotations.
Open Scope Z_scope.
#[local] Arguments Z.pow : simpl never.

(** ** Specification *)

(** Every stretch of the curve has a liquidity of at least [least] and at most [most]. *)
Definition liquidity_between (least most : Z) (c : config) : Prop :=
  Forall (fun point => least <= snd point <= most) (curve_points c).

(** The same, of those stretches only that some price between [a] and [b] lies on; the first stretch begins at [low]. *)
Fixpoint liquidity_along (least most a b low : Z) (curve : list (Z * Z)) : Prop :=
  match curve with
  | [] => True
  | (p, l) :: rest => (low < b /\ a < p -> least <= l <= most) /\ liquidity_along least most a b p rest
  end.

(** ** The curve *)
Lemma along_mono least most a b a' b' curve : forall low, a <= a' -> b' <= b ->
  liquidity_along least most a b low curve -> liquidity_along least most a' b' low curve.
Proof.
  induction curve as [|[p l] rest IH]; intros low A B H; cbn [liquidity_along] in *; [exact I|].
  destruct H as (H1 & H2). split; [intros (X & Y); apply H1; lia|apply IH; assumption].
Qed.

Lemma area_along least most curve : forall low x y, curve_wf low curve -> 0 <= least ->
  liquidity_along least most x y low curve -> low <= x <= y -> y <= top_price low curve ->
  least * (y - x) <= quote_area low curve y - quote_area low curve x <= most * (y - x).
Proof.
  induction curve as [|[p l] rest IH]; intros low x y W L0 F X Y.
  - cbn [quote_area top_price] in *. replace (y - x) with 0 by lia. lia.
  - destruct (Z.eq_dec x y) as [->|NE]; [rewrite !Z.sub_diag; lia|].
    cbn [quote_area top_price curve_wf liquidity_along] in *. destruct W as (W1 & W2 & W3). destruct F as (HL & HF).
    assert (C : forall z, low <= z -> covered low p z = Z.min p z) by (intros; unfold covered; lia).
    rewrite !C by lia. clear C.
    assert (Z0 : forall z, z <= p -> quote_area p rest z = 0).
    { clear - W3. revert p W3. induction rest as [|[p' l'] r IHr]; intros p W z Z; cbn [quote_area curve_wf] in *; [reflexivity|].
      destruct W as (A & B & D). rewrite (IHr p' D) by lia. unfold covered. replace (Z.max p (Z.min p' z)) with p by lia. lia. }
    destruct (Z.le_gt_cases x p) as [XP|XP].
    + assert (M : forall d, 0 <= d -> (d = 0 \/ x < p) -> least * d <= l * d <= most * d).
      { intros d D [->|K]; [lia|]. specialize (HL ltac:(lia)). split; apply Z.mul_le_mono_nonneg_r; lia. }
      destruct (Z.le_gt_cases y p) as [YP|YP].
      * rewrite !Z0 by lia. rewrite !Z.min_r by lia. pose proof (M (y - x) ltac:(lia) ltac:(lia)). lia.
      * rewrite (Z0 x XP). rewrite Z.min_l, Z.min_r by lia.
        pose proof (IH p p y W3 L0 (along_mono _ _ _ _ _ _ _ _ XP (Z.le_refl y) HF) ltac:(lia) Y) as I. rewrite (Z0 p) in I by lia.
        pose proof (M (p - x) ltac:(lia) ltac:(lia)). lia.
    + rewrite !Z.min_l by lia. pose proof (IH p x y W3 L0 HF ltac:(lia) Y) as I. lia.
Qed.

Lemma area_depth least most curve : forall low x y, curve_wf low curve -> 0 <= least ->
  Forall (fun point : Z * Z => least <= snd point <= most) curve -> low <= x <= y -> y <= top_price low curve ->
  least * (y - x) <= quote_area low curve y - quote_area low curve x <= most * (y - x).
Proof.
  induction curve as [|[p l] rest IH]; intros low x y W L0 F X Y.
  - cbn [quote_area top_price] in *. replace (y - x) with 0 by lia. lia.
  - cbn [quote_area top_price curve_wf] in *. destruct W as (W1 & W2 & W3). inversion F as [|? ? HL HF]; subst. cbn [snd] in HL.
    assert (C : forall z, low <= z -> covered low p z = Z.min p z) by (intros; unfold covered; lia).
    rewrite !C by lia. clear C.
    assert (Z0 : forall z, z <= p -> quote_area p rest z = 0).
    { clear - W3. revert p W3. induction rest as [|[p' l'] r IHr]; intros p W z Z; cbn [quote_area curve_wf] in *; [reflexivity|].
      destruct W as (A & B & D). rewrite (IHr p' D) by lia. unfold covered. replace (Z.max p (Z.min p' z)) with p by lia. lia. }
    assert (M1 : forall d, 0 <= d -> least * d <= l * d) by (intros; apply Z.mul_le_mono_nonneg_r; lia).
    assert (M2 : forall d, 0 <= d -> l * d <= most * d) by (intros; apply Z.mul_le_mono_nonneg_r; lia).
    destruct (Z.le_gt_cases y p) as [YP|YP].
    + rewrite !Z0 by lia. rewrite !Z.min_r by lia. pose proof (M1 (y - x) ltac:(lia)). pose proof (M2 (y - x) ltac:(lia)). lia.
    + destruct (Z.le_gt_cases x p) as [XP|XP].
      * rewrite (Z0 x XP). rewrite Z.min_l, Z.min_r by lia.
        pose proof (IH p p y W3 L0 HF ltac:(lia) Y) as I. rewrite (Z0 p) in I by lia.
        pose proof (M1 (p - x) ltac:(lia)). pose proof (M2 (p - x) ltac:(lia)). lia.
      * rewrite !Z.min_l by lia. pose proof (IH p x y W3 L0 HF ltac:(lia) Y) as I. lia.
Qed.

Lemma inv_z_le x y : 0 < x -> x <= y -> (/ inject_Z y <= / inject_Z x)%Q.
Proof.
  intros P L. apply Potential.inv_le; [change 0%Q with (inject_Z 0); rewrite <- Zlt_Qlt; exact P|rewrite <- Zle_Qle; exact L].
Qed.

Lemma base_along least most curve : forall low x y, 0 < low -> curve_wf low curve ->
  liquidity_along least most x y low curve -> low <= x <= y -> y <= top_price low curve ->
  (inject_Z least * (/ inject_Z x - / inject_Z y) <= base_area low curve y - base_area low curve x
   /\ base_area low curve y - base_area low curve x <= inject_Z most * (/ inject_Z x - / inject_Z y))%Q.
Proof.
  induction curve as [|[p l] rest IH]; intros low x y P0 W F X Y.
  - cbn [base_area top_price] in *. replace x with y by lia. split; lra.
  - destruct (Z.eq_dec x y) as [->|NE]; [split; lra|].
    cbn [base_area top_price curve_wf liquidity_along] in *. destruct W as (W1 & W2 & W3). destruct F as (HL & HF).
    assert (C : forall z, low <= z -> covered low p z = Z.min p z) by (intros; unfold covered; lia).
    rewrite !C by lia. clear C.
    assert (Z0 : forall z, z <= p -> (base_area p rest z == 0)%Q) by (intros; apply base_area_below; assumption).
    destruct (Z.le_gt_cases x p) as [XP|XP].
    + assert (M : forall d, (0 <= d)%Q -> ((d == 0)%Q \/ x < p) ->
        (inject_Z least * d <= inject_Z l * d)%Q /\ (inject_Z l * d <= inject_Z most * d)%Q).
      { intros d D [K|K]; [rewrite K; split; lra|]. specialize (HL ltac:(lia)).
        split; (apply Qmult_le_compat_r; [rewrite <- Zle_Qle; lia|exact D]). }
      destruct (Z.le_gt_cases y p) as [YP|YP].
      * rewrite !Z.min_r by lia. rewrite (Z0 y), (Z0 x) by lia. pose proof (inv_z_le x y ltac:(lia) ltac:(lia)) as IL.
        destruct (M (/ inject_Z x - / inject_Z y)%Q ltac:(lra) ltac:(right; lia)). split; lra.
      * rewrite (Z0 x XP). rewrite Z.min_l, Z.min_r by lia.
        destruct (IH p p y ltac:(lia) W3 (along_mono _ _ _ _ _ _ _ _ XP (Z.le_refl y) HF) ltac:(lia) Y) as (I1 & I2).
        rewrite (Z0 p) in I1, I2 by lia. pose proof (inv_z_le x p ltac:(lia) ltac:(lia)) as IL.
        assert (K : (/ inject_Z x - / inject_Z p == 0)%Q \/ x < p)
          by (destruct (Z.eq_dec x p) as [->|]; [left; ring|right; lia]).
        destruct (M (/ inject_Z x - / inject_Z p)%Q ltac:(lra) K). split; lra.
    + rewrite !Z.min_l by lia. destruct (IH p x y ltac:(lia) W3 HF ltac:(lia) Y) as (I1 & I2). split; lra.
Qed.

Lemma inv_scale l b x y : 0 < x -> 0 < y -> (b * inject_Z (x * y) == inject_Z l * (/ inject_Z x - / inject_Z y) * inject_Z (x * y)
  -> b * inject_Z (x * y) == inject_Z (l * (y - x)))%Q.
Proof.
  intros X Y E. rewrite E. rewrite !inject_Z_mult. unfold Zminus. rewrite inject_Z_plus, inject_Z_opp. field.
  split; intro K; change 0%Q with (inject_Z 0) in K; rewrite inject_Z_injective in K; lia.
Qed.

(** ** The theorem *)

(** Over any history from any state, whatever is traded in it: if the price rises by [d], in the 64.64 units of its square root,
    the quote reserve grows by at least least * d / 2^128 and at most most * d / 2^128 and k units a trade; if it falls by [d],
    the reserve shrinks by at most most * d / 2^128, and by at least least * d / 2^128 less k units a trade. *)
Theorem C107_depth : forall least most w ops, reachable w -> 0 <= least -> liquidity_between least most (w_config w) ->
  let w' := run w ops in let p := p_price (w_pool w) in let p' := p_price (w_pool w') in
  let grown := p_quote (w_pool w') - p_quote (w_pool w) in let rounding := trades w ops * dust (w_config w) in
  (p <= p' -> least * (p' - p) <= grown * 2 ^ 128 <= most * (p' - p) + rounding * 2 ^ 128)
  /\ (p' <= p -> least * (p - p') - rounding * 2 ^ 128 <= - grown * 2 ^ 128 <= most * (p - p')).
Proof.
  intros least most w ops R L0 LB w' p p' grown rounding.
  destruct (run_area ops w R) as (Q & _). cbv zeta in Q. fold w' p p' grown in Q.
  pose proof (drift ops w R) as D. cbv zeta in D. fold w' p p' grown rounding in D.
  pose proof (iv_price _ (reachable_inv _ R)) as PB. pose proof (iv_price _ (reachable_inv _ (reachable_run w ops R))) as PB'.
  rewrite (fr_config _ _ (run_frame ops w (reachable_inv _ R))) in PB'. fold p in PB. fold w' p' in PB'.
  pose proof (ok_curve _ (created_cfg_ok _ (iv_created _ (reachable_inv _ R)))) as [S _ _ W _ MH _ _].
  set (c := w_config w) in *. unfold liquidity_between in LB.
  assert (U : grown * 2 ^ 128 <= quote_area (c_start c) (curve_points c) p' - quote_area (c_start c) (curve_points c) p + rounding * 2 ^ 128).
  { assert (T0 : (0 < inject_Z (2 ^ 128))%Q) by reflexivity.
    apply (Qmult_le_l _ _ (inject_Z (2 ^ 128)) T0) in D. rewrite Qmult_plus_distr_r, exact_scaled in D.
    rewrite <- !inject_Z_mult, <- inject_Z_plus, <- Zle_Qle in D. lia. }
  clear D. set (t := 2 ^ 128) in *. clearbody t grown rounding.
  split; intros L.
  - pose proof (area_depth least most (curve_points c) (c_start c) p p' W L0 LB ltac:(lia) ltac:(lia)). lia.
  - pose proof (area_depth least most (curve_points c) (c_start c) p' p W L0 LB ltac:(lia) ltac:(lia)). lia.
Qed.

(** Sharper: only the liquidity of the stretches between the two prices matters. Within one stretch, of liquidity [l], [least]
    and [most] are both [l], and the move is determined up to rounding. *)
Theorem C107_depth_local : forall least most w ops, reachable w -> 0 <= least ->
  let w' := run w ops in let p := p_price (w_pool w) in let p' := p_price (w_pool w') in
  let grown := p_quote (w_pool w') - p_quote (w_pool w) in let rounding := trades w ops * dust (w_config w) in
  liquidity_along least most (Z.min p p') (Z.max p p') (c_start (w_config w)) (curve_points (w_config w)) ->
  (p <= p' -> least * (p' - p) <= grown * 2 ^ 128 <= most * (p' - p) + rounding * 2 ^ 128)
  /\ (p' <= p -> least * (p - p') - rounding * 2 ^ 128 <= - grown * 2 ^ 128 <= most * (p - p')).
Proof.
  intros least most w ops R L0 w' p p' grown rounding LB.
  destruct (run_area ops w R) as (Q & _). cbv zeta in Q. fold w' p p' grown in Q.
  pose proof (drift ops w R) as D. cbv zeta in D. fold w' p p' grown rounding in D.
  pose proof (iv_price _ (reachable_inv _ R)) as PB. pose proof (iv_price _ (reachable_inv _ (reachable_run w ops R))) as PB'.
  rewrite (fr_config _ _ (run_frame ops w (reachable_inv _ R))) in PB'. fold p in PB. fold w' p' in PB'.
  pose proof (ok_curve _ (created_cfg_ok _ (iv_created _ (reachable_inv _ R)))) as [S _ _ W _ MH _ _].
  set (c := w_config w) in *.
  assert (U : grown * 2 ^ 128 <= quote_area (c_start c) (curve_points c) p' - quote_area (c_start c) (curve_points c) p + rounding * 2 ^ 128).
  { assert (T0 : (0 < inject_Z (2 ^ 128))%Q) by reflexivity.
    apply (Qmult_le_l _ _ (inject_Z (2 ^ 128)) T0) in D. rewrite Qmult_plus_distr_r, exact_scaled in D.
    rewrite <- !inject_Z_mult, <- inject_Z_plus, <- Zle_Qle in D. lia. }
  clear D. set (t := 2 ^ 128) in *. clearbody t grown rounding.
  split; intros L.
  - rewrite Z.min_l, Z.max_r in LB by lia. pose proof (area_along least most (curve_points c) (c_start c) p p' W L0 LB ltac:(lia) ltac:(lia)). lia.
  - rewrite Z.min_r, Z.max_l in LB by lia. pose proof (area_along least most (curve_points c) (c_start c) p' p W L0 LB ltac:(lia) ltac:(lia)). lia.
Qed.

(** The base tokens: as the price rises from [p] to [p'], at most most * (1/p - 1/p') of them leave the reserve; as it falls,
    at least least * (1/p' - 1/p) of them come in. (Rounding may only leave more of them in the pool.) *)
Theorem C107_depth_base : forall least most w ops, reachable w ->
  let w' := run w ops in let p := p_price (w_pool w) in let p' := p_price (w_pool w') in
  let out := p_base (w_pool w) - p_base (w_pool w') in
  liquidity_along least most (Z.min p p') (Z.max p p') (c_start (w_config w)) (curve_points (w_config w)) ->
  (p <= p' -> out * (p * p') <= most * (p' - p)) /\ (p' <= p -> least * (p - p') <= - out * (p * p')).
Proof.
  intros least most w ops R w' p p' out LB.
  destruct (run_area ops w R) as (_ & B). cbv zeta in B. fold w' p p' in B.
  pose proof (iv_price _ (reachable_inv _ R)) as PB. pose proof (iv_price _ (reachable_inv _ (reachable_run w ops R))) as PB'.
  rewrite (fr_config _ _ (run_frame ops w (reachable_inv _ R))) in PB'. fold p in PB. fold w' p' in PB'.
  pose proof (ok_curve _ (created_cfg_ok _ (iv_created _ (reachable_inv _ R)))) as [S _ _ W _ MH _ _].
  set (c := w_config w) in *.
  replace (p_base (w_pool w') - p_base (w_pool w)) with (- out) in B by (unfold out; lia). rewrite inject_Z_opp in B. clearbody out.
  assert (T0 : (0 <= inject_Z (p * p'))%Q) by (change 0%Q with (inject_Z 0); rewrite <- Zle_Qle; apply Z.mul_nonneg_nonneg; lia).
  split; intros L.
  - rewrite Z.min_l, Z.max_r in LB by lia.
    destruct (base_along least most (curve_points c) (c_start c) p p' ltac:(lia) W LB ltac:(lia) ltac:(lia)) as (_ & U).
    assert (G : (inject_Z out <= inject_Z most * (/ inject_Z p - / inject_Z p'))%Q) by lra.
    apply (Qmult_le_compat_r _ _ _ G) in T0.
    rewrite (inv_scale most _ p p' ltac:(lia) ltac:(lia) (Qeq_refl _)), <- inject_Z_mult, <- Zle_Qle in T0. exact T0.
  - rewrite Z.min_r, Z.max_l in LB by lia.
    destruct (base_along least most (curve_points c) (c_start c) p' p ltac:(lia) W LB ltac:(lia) ltac:(lia)) as (U & _).
    assert (G : (inject_Z least * (/ inject_Z p' - / inject_Z p) <= inject_Z (- out))%Q) by (rewrite inject_Z_opp; lra).
    rewrite Z.mul_comm in T0. apply (Qmult_le_compat_r _ _ _ G) in T0.
    rewrite (inv_scale least _ p' p ltac:(lia) ltac:(lia) (Qeq_refl _)), <- inject_Z_mult, <- Zle_Qle in T0.
    rewrite (Z.mul_comm p p'). exact T0.
Qed.

(** One trade, and its user's money: a purchase for [paid] raises the price by at most paid * 2^128 / least. *)
Theorem C107_impact : forall least most w a w' paid got ft x, reachable w -> 0 <= least -> liquidity_between least most (w_config w) ->
  exec w (OSwap a) = Ok w' -> sa_dir a = QuoteToBase -> w_log w' = w_log w ++ swap_movements a paid got ft x ->
  p_price (w_pool w) <= p_price (w_pool w')
  /\ least * (p_price (w_pool w') - p_price (w_pool w)) <= paid * 2 ^ 128.
Proof.
  intros least most w a w' paid got ft x R L0 LB H D LG.
  pose proof (C10_price_direction _ _ _ R H) as DR. rewrite D in DR. split; [exact DR|].
  destruct (C107_depth least most w [OSwap a] R L0 LB) as (A & _).
  assert (E : run w [OSwap a] = w') by (unfold run; simpl; unfold step; rewrite H; reflexivity). rewrite E in A.
  specialize (A DR). destruct A as (A & _). eapply Z.le_trans; [exact A|].
  destruct (C01_swap_conserves_tokens _ _ _ R H) as (pd & gt & tr & pr & rf & f & FT & P1 & P2 & P3 & P4 & P5 & _ & L & IN & _).
  rewrite LG in L. apply movements_inj in L. destruct L as (-> & ->).
  apply Z.mul_le_mono_nonneg_r; [vm_compute; discriminate|]. rewrite D in IN. cbn [token_in reserve] in IN.
  assert (0 <= on f TQuote (tr + pr + rf)) by (unfold on; destruct f; cbn; lia). lia.
Qed.

(** And a sale of [sold] raises the reciprocal of the price by at most sold / least, the least liquidity being that of the
    stretches it passes. *)
Theorem C107_impact_sale : forall least most w a w' sold got ft x, reachable w ->
  let p := p_price (w_pool w) in let p' := p_price (w_pool w') in
  liquidity_along least most p' p (c_start (w_config w)) (curve_points (w_config w)) ->
  exec w (OSwap a) = Ok w' -> sa_dir a = BaseToQuote -> w_log w' = w_log w ++ swap_movements a sold got ft x ->
  p' <= p /\ least * (p - p') <= sold * (p * p').
Proof.
  intros least most w a w' sold got ft x R p p' LB H D LG.
  pose proof (C10_price_direction _ _ _ R H) as DR. rewrite D in DR. fold p p' in DR. split; [exact DR|].
  assert (E : run w [OSwap a] = w') by (unfold run; simpl; unfold step; rewrite H; reflexivity).
  pose proof (C107_depth_base least most w [OSwap a] R) as A. cbv zeta in A. rewrite E in A. fold p p' in A.
  rewrite Z.min_r, Z.max_l in A by lia. destruct (A LB) as (_ & B). specialize (B DR).
  eapply Z.le_trans; [exact B|].
  destruct (C01_swap_conserves_tokens _ _ _ R H) as (pd & gt & tr & pr & rf & f & FT & P1 & P2 & P3 & P4 & P5 & _ & L & IN & _).
  rewrite LG in L. apply movements_inj in L. destruct L as (-> & ->).
  pose proof (iv_price _ (reachable_inv _ R)) as PB. fold p in PB.
  pose proof (iv_price _ (reachable_inv _ (reachable_exec _ _ _ R H))) as PB'. fold p' in PB'.
  pose proof (co_start _ _ (ok_curve _ (created_cfg_ok _ (iv_created _ (reachable_inv _ R))))) as S0.
  pose proof (co_start _ _ (ok_curve _ (created_cfg_ok _ (iv_created _ (reachable_inv _ (reachable_exec _ _ _ R H)))))) as S1.
  apply Z.mul_le_mono_nonneg_r; [apply Z.mul_nonneg_nonneg; lia|]. rewrite D in IN. cbn [token_in reserve] in IN.
  assert (0 <= on f TBase (tr + pr + rf)) by (unfold on; destruct f; cbn; lia). lia.
Qed.

(** ** Non-vacuity *)

(** The first half of a pool's life raises the price across a point of the curve; the bounds are 28.1 and 56.1 billion
    units, the reserve grew by 29.4 billion. *)
Example C107_case : reachable wA
  /\ liquidity_between 47223664828696452136960000000000 94447329657392904273920000000000 (w_config wA)
  /\ p_price (w_pool wA) = 576460752303423488 /\ p_price (w_pool (run wA histA1)) = 778582803916519390
  /\ p_quote (w_pool (run wA histA1)) - p_quote (w_pool wA) = 29433472206 /\ trades wA histA1 * dust (w_config wA) = 25
  /\ 47223664828696452136960000000000 * (778582803916519390 - 576460752303423488) / 2 ^ 128 = 28050069435
  /\ 94447329657392904273920000000000 * (778582803916519390 - 576460752303423488) / 2 ^ 128 = 56100138871.
Proof.
  split; [exists wA, []; split; [apply initialA|reflexivity]|]. split; [|vm_compute; repeat split; reflexivity].
  repeat (constructor; [vm_compute; split; discriminate|]). constructor.
Qed.

(** The rest of that history stays on the second stretch, where the price falls: that stretch's liquidity alone determines
    how far it goes. *)
Example C107_case_local : let w := run wA (firstn 2 histA1) in let w' := run w (skipn 2 histA1) in
  let p := p_price (w_pool w) in let p' := p_price (w_pool w') in let l := 94447329657392904273920000000000 in
  reachable w /\ p' < p
  /\ liquidity_along l l (Z.min p p') (Z.max p p') (c_start (w_config w)) (curve_points (w_config w))
  /\ p_quote (w_pool w) - p_quote (w_pool w') = 1039528824 /\ l * (p - p') / 2 ^ 128 = 1039528824
  /\ p_base (w_pool w') - p_base (w_pool w) = 580740672912 /\ l * (p - p') / (p * p') = 580740672911.
Proof.
  split; [exists wA, (firstn 2 histA1); split; [apply initialA|reflexivity]|]. split; [vm_compute; reflexivity|].
  split; [|vm_compute; repeat split; reflexivity].
  vm_compute. split; [intros (X & Y); discriminate|]. split; [intros _; split; discriminate|].
  split; [intros (X & Y); discriminate|exact I].
Qed.

(** A sale of 2.5e12 base units across the point between these two stretches: the price it reaches is bounded by what the least
    liquidity gives, at which 1.42e12 units would have been enough to get there. *)
Example C107_case_sale : let w := run wA (firstn 2 histA1) in
  let a := mkSwapArgs 500 None BaseToQuote 0 2500000000000 0 2000 1700000500 plain_view in
  let w' := step w (OSwap a) in let p := p_price (w_pool w) in let p' := p_price (w_pool w') in
  let least := 47223664828696452136960000000000 in
  reachable w /\ exec w (OSwap a) = Ok w' /\ w_log w' = w_log w ++ swap_movements a 2500000000000 4315569116 TQuote 0
  /\ liquidity_along least (2 * least) p' p (c_start (w_config w)) (curve_points (w_config w))
  /\ p' = 764310316687821007 /\ least * (p - p') / (p * p') = 1422991889303.
Proof.
  split; [exists wA, (firstn 2 histA1); split; [apply initialA|reflexivity]|]. split; [vm_compute; reflexivity|].
  split; [vm_compute; reflexivity|]. split; [|vm_compute; split; reflexivity].
  vm_compute. split; [intros _; split; discriminate|]. split; [intros _; split; discriminate|].
  split; [intros (X & Y); discriminate|exact I].
Qed.

Print Assumptions C107_depth.
Print Assumptions C107_depth_local.
Print Assumptions C107_depth_base.
Print Assumptions C107_impact.
Print Assumptions C107_impact_sale.
