(** * C87: a trade executes between the prices before and after it. Nobody buys below or sells above
    the price shown before the trade; nobody, up to rounding, buys above or sells below the price after. *)
From Coq Require Import ZArith QArith Qround List Bool Lia ZifyBool Lqa.
From Verif Require Import Base MathModel CurveModel FeeModel ConfigModel PoolModel TxModel
  SystemModel Fixtures Spec Lib CurveProofs CurveLoops Potential CalcProofs ConfigProofs FeeProofs
  SwapProofs InvProofs InvOps InvReach FixturesReach Effects Frame PropSwap Steps Walks PropTrade PropFair.
Import ListNotations.
Open Scope Z_scope.
#[local] Arguments Z.pow : simpl never.
#[local] Arguments Z.testbit : simpl never.

(** ** Specification *)

(** [quote] tokens are worth at least, at most [base] tokens at the price shown as square root [p]
    (64 bits before and after the point): one base token costs (p / 2^64)^2 quote tokens. *)
Definition costs_at_least (p base quote : Z) : Prop := base * p ^ 2 <= quote * 2 ^ 128.
Definition costs_at_most (p base quote : Z) : Prop := quote * 2 ^ 128 <= base * p ^ 2.

(** ** The curve *)
Lemma q_inv_between a b x y : (0 < a -> a <= x -> x <= y -> y <= b ->
  (/ x - / y) * (a * a) <= y - x /\ y - x <= (/ x - / y) * (b * b))%Q.
Proof.
  intros A X Y B. assert (E : (/ x - / y == (y - x) / (x * y))%Q) by (field; split; lra).
  rewrite E. assert (P : (0 < x * y)%Q) by (apply Qmult_lt_0_compat; lra).
  assert (S1 : (a * a <= x * y)%Q) by (apply Qmult_le_compat_nonneg; lra).
  assert (S2 : (x * y <= b * b)%Q) by (apply Qmult_le_compat_nonneg; lra).
  assert (D : (0 <= y - x)%Q) by lra.
  assert (V : (0 <= (y - x) / (x * y))%Q) by (apply Qle_shift_div_l; lra).
  assert (F : ((y - x) / (x * y) * (x * y) == y - x)%Q) by (field; split; lra).
  set (v := ((y - x) / (x * y))%Q) in *. clearbody v. split.
  - rewrite <- F. rewrite !(Qmult_comm v). apply Qmult_le_compat_r; auto.
  - rewrite <- F at 1. rewrite !(Qmult_comm v). apply Qmult_le_compat_r; auto.
Qed.

Lemma area_between curve : forall low a b, 0 < low -> curve_wf low curve -> low <= a -> a <= b ->
  let dq := inject_Z (quote_area low curve b - quote_area low curve a) in
  let db := (base_area low curve b - base_area low curve a)%Q in
  (db * (inject_Z a * inject_Z a) <= dq /\ dq <= db * (inject_Z b * inject_Z b))%Q.
Proof.
  induction curve as [|[p l] rest IH]; intros low a b P W A B.
  - cbn [quote_area base_area]. cbv zeta. change (inject_Z (0 - 0)) with 0%Q.
    assert (E : (0 - 0 == 0)%Q) by reflexivity. rewrite E, !Qmult_0_l. split; lra.
  - pose proof W as (W1 & W2 & W3). cbv zeta. cbn [quote_area base_area].
    set (x := covered low p a). set (y := covered low p b).
    assert (XY : x <= y) by (unfold x, y, covered; lia).
    assert (X0 : low <= x <= p /\ x <= a) by (unfold x, covered; lia).
    assert (Y0 : low <= y <= p /\ y <= b) by (unfold y, covered; lia).
    (* the head *)
    assert (HD : (inject_Z l * (/ inject_Z x - / inject_Z y) * (inject_Z a * inject_Z a) <= inject_Z (l * (y - x))
                  /\ inject_Z (l * (y - x)) <= inject_Z l * (/ inject_Z x - / inject_Z y) * (inject_Z b * inject_Z b))%Q).
    { destruct (Z.eq_dec x y) as [E|N].
      - rewrite <- E, Z.sub_diag, Z.mul_0_r. change (inject_Z 0) with 0%Q.
        assert (Z0 : (inject_Z l * (/ inject_Z x - / inject_Z x) == 0)%Q) by ring.
        rewrite Z0, !Qmult_0_l. split; lra.
      - assert (XA : x = a) by (unfold x, y, covered in *; lia).
        destruct (q_inv_between (inject_Z a) (inject_Z b) (inject_Z x) (inject_Z y)) as (Q1 & Q2);
          [change 0%Q with (inject_Z 0); rewrite <- Zlt_Qlt; lia|rewrite <- Zle_Qle; lia..|].
        rewrite inject_Z_mult. unfold Z.sub. rewrite inject_Z_plus, inject_Z_opp.
        assert (L0 : (0 <= inject_Z l)%Q) by (change 0%Q with (inject_Z 0); rewrite <- Zle_Qle; lia).
        split; rewrite <- Qmult_assoc; rewrite !(Qmult_comm (inject_Z l)); apply Qmult_le_compat_r; auto. }
    (* the rest *)
    assert (TL : ((base_area p rest b - base_area p rest a) * (inject_Z a * inject_Z a)
                    <= inject_Z (quote_area p rest b - quote_area p rest a)
                  /\ inject_Z (quote_area p rest b - quote_area p rest a)
                    <= (base_area p rest b - base_area p rest a) * (inject_Z b * inject_Z b))%Q).
    { destruct (Z_le_gt_dec b p) as [BP|BP].
      { rewrite !base_area_below by (auto; lia). rewrite !quote_area_below by (auto; lia).
        change (inject_Z (0 - 0)) with 0%Q. assert (E : (0 - 0 == 0)%Q) by reflexivity. rewrite E, !Qmult_0_l. split; lra. }
      destruct (IH p (Z.max a p) b ltac:(lia) W3 ltac:(lia) ltac:(lia)) as (I1 & I2).
      assert (EA : (base_area p rest (Z.max a p) == base_area p rest a)%Q).
      { destruct (Z_le_gt_dec a p); [rewrite Z.max_r by lia; rewrite !base_area_below by (auto; lia); reflexivity|].
        rewrite Z.max_l by lia. reflexivity. }
      assert (EQ : quote_area p rest (Z.max a p) = quote_area p rest a).
      { destruct (Z_le_gt_dec a p); [rewrite Z.max_r by lia; rewrite !quote_area_below by (auto; lia); reflexivity|].
        rewrite Z.max_l by lia. reflexivity. }
      rewrite EA, EQ in I1, I2. split; [|exact I2]. eapply Qle_trans; [|exact I1].
      pose proof (base_area_mono p rest a b ltac:(lia) W3 B) as BM.
      rewrite !(Qmult_comm (base_area p rest b - base_area p rest a)). apply Qmult_le_compat_r; [|lra].
      rewrite <- !inject_Z_mult, <- Zle_Qle. nia. }
    assert (D1 : (inject_Z l * (/ inject_Z low - / inject_Z y) + base_area p rest b
                  - (inject_Z l * (/ inject_Z low - / inject_Z x) + base_area p rest a)
                  == inject_Z l * (/ inject_Z x - / inject_Z y) + (base_area p rest b - base_area p rest a))%Q) by ring.
    rewrite D1.
    replace (l * (y - low) + quote_area p rest b - (l * (x - low) + quote_area p rest a))
      with (l * (y - x) + (quote_area p rest b - quote_area p rest a)) by lia.
    rewrite inject_Z_plus. split; rewrite Qmult_plus_distr_l; apply Qplus_le_compat; tauto.
Qed.

Lemma inj_pow2 x : (inject_Z (x ^ 2) == inject_Z x * inject_Z x)%Q.
Proof. rewrite Z.pow_2_r, inject_Z_mult. reflexivity. Qed.

Lemma inj_mult_pos (x y z : Q) : (x <= y -> 0 <= z -> x * z <= y * z)%Q.
Proof. intros. apply Qmult_le_compat_r; auto. Qed.

(** ** Theorems *)

(** No purchase is cheaper and no sale is dearer than the price before it, whatever the fees. *)
Theorem C87_never_better_than_shown : forall w a w' paid got ft x,
  reachable w -> exec w (OSwap a) = Ok w' -> w_log w' = w_log w ++ swap_movements a paid got ft x ->
  match sa_dir a with
  | QuoteToBase => costs_at_least (p_price (w_pool w)) got paid
  | BaseToQuote => costs_at_most (p_price (w_pool w)) paid got
  end.
Proof.
  intros w a w' paid got ft x R H LG.
  destruct (C01_swap_conserves_tokens _ _ _ R H) as (pd & gt & tr & pr & rf & f & FT & P1 & P2 & P3 & P4 & P5 & _ & L & IN & OUT & _).
  rewrite LG in L. apply movements_inj in L. destruct L as (-> & ->).
  destruct (reach_swap _ _ _ R H) as (K & F & HA & _ & r & fm & num & fee & gross & pf & cf & cur & p1 & E & _ & _).
  pose proof (se_facts _ _ _ _ _ _ _ _ _ _ _ E) as SF.
  destruct (effect_applied _ _ _ _ _ _ _ _ _ _ _ E) as (p2 & AP & SM). destruct SM as (SP & _).
  assert (PR : p_price (w_pool w') = sr_price r) by (rewrite SP; exact (ap_price _ _ _ _ _ _ _ _ _ AP)).
  pose proof (sf_dir _ _ _ _ _ _ _ _ SF) as DR. pose proof (sf_price _ _ _ _ _ _ _ _ SF) as RG. rewrite <- PR in DR, RG.
  pose proof (iv_price _ (reachable_inv _ R)) as PB.
  destruct (C11_rounding_favours_pool _ _ _ R H) as (Q1 & B1). cbv zeta in Q1, B1.
  pose proof (ok_curve _ K) as CO. pose proof CO as [S [n PAD] NE W M1 M2 MX LQ].
  set (c := w_config w) in *. set (p := p_price (w_pool w)) in *. set (q := p_price (w_pool w')) in *.
  assert (FN : 0 <= on f (token_in (sa_dir a)) (tr + pr + rf) /\ 0 <= on f (token_out (sa_dir a)) (tr + pr + rf)).
  { unfold on. destruct f, (sa_dir a); cbn; lia. }
  unfold costs_at_least, costs_at_most.
  assert (PP : (0 <= inject_Z (p ^ 2))%Q) by (change 0%Q with (inject_Z 0); rewrite <- Zle_Qle; nia).
  destruct (sa_dir a); cbn [token_in token_out reserve] in IN, OUT, FN; cbn [price_moves] in DR.
  - destruct (area_between (curve_points c) (c_start c) q p S W (proj1 RG) DR) as (_ & AB). cbv zeta in AB.
    rewrite <- inj_pow2 in AB. rewrite Zle_Qle, !inject_Z_mult.
    rewrite Zle_Qle in Q1. unfold Z.sub in Q1. rewrite !inject_Z_mult, !inject_Z_plus, !inject_Z_opp in Q1.
    unfold Z.sub in AB. rewrite inject_Z_plus, inject_Z_opp in AB.
    assert (G : (inject_Z gt * inject_Z (2 ^ 128) <= inject_Z (quote_area (c_start c) (curve_points c) p) - inject_Z (quote_area (c_start c) (curve_points c) q))%Q).
    { assert (G0 : gt <= p_quote (w_pool w) - p_quote (w_pool w')) by lia. rewrite Zle_Qle in G0.
      unfold Z.sub in G0. rewrite inject_Z_plus, inject_Z_opp in G0.
      apply (inj_mult_pos _ _ (inject_Z (2 ^ 128))) in G0; [|vm_compute; discriminate].
      assert (EX : ((inject_Z (p_quote (w_pool w')) + - inject_Z (p_quote (w_pool w))) * inject_Z (2 ^ 128)
               == - ((inject_Z (p_quote (w_pool w)) + - inject_Z (p_quote (w_pool w'))) * inject_Z (2 ^ 128)))%Q) by ring.
      rewrite EX in Q1. lra. }
    eapply Qle_trans; [exact G|]. eapply Qle_trans; [exact AB|]. apply inj_mult_pos; [|exact PP].
    eapply Qle_trans; [exact B1|]. rewrite <- Zle_Qle. lia.
  - destruct (area_between (curve_points c) (c_start c) p q S W (proj1 PB) DR) as (AB & _). cbv zeta in AB.
    rewrite <- inj_pow2 in AB. rewrite Zle_Qle, !inject_Z_mult.
    assert (G : (inject_Z gt * inject_Z (p ^ 2) <= (base_area (c_start c) (curve_points c) q - base_area (c_start c) (curve_points c) p) * inject_Z (p ^ 2))%Q).
    { apply inj_mult_pos; [|exact PP]. assert (G0 : gt <= - (p_base (w_pool w') - p_base (w_pool w))) by lia.
      rewrite Zle_Qle, inject_Z_opp in G0. lra. }
    eapply Qle_trans; [exact G|]. eapply Qle_trans; [exact AB|]. rewrite <- inject_Z_mult, <- Zle_Qle.
    eapply Z.le_trans; [exact Q1|]. apply Z.mul_le_mono_nonneg_r; [vm_compute; discriminate|]. lia.
Qed.

Lemma exact_scaled c x y : (inject_Z (2 ^ 128) * (exact_quote c x - exact_quote c y)
  == inject_Z (quote_area (c_start c) (curve_points c) x - quote_area (c_start c) (curve_points c) y))%Q.
Proof.
  unfold exact_quote, Z.sub. rewrite inject_Z_plus, inject_Z_opp. field. vm_compute. discriminate.
Qed.

(** What enters and what leaves the reserves, fees aside, is exchanged at a price no worse for the trader than
    the price after the trade, but for [k] units on either side, where [k] is the number of points of the curve
    plus three; for a sale the price is one step of its resolution lower. *)
Theorem C87_never_worse_than_reached : forall w a w', reachable w -> exec w (OSwap a) = Ok w' ->
  let price := p_price (w_pool w') in
  let base := p_base (w_pool w') - p_base (w_pool w) in
  let quote := p_quote (w_pool w') - p_quote (w_pool w) in
  let k := Z.of_nat (length (curve_points (w_config w))) + 3 in
  match sa_dir a with
  | QuoteToBase => costs_at_most price (- base + k) (quote - k)
  | BaseToQuote => costs_at_least (price - 1) (base - k) (- quote + k)
  end.
Proof.
  intros w a w' R H price base quote k.
  pose proof (C65_fair_execution _ _ _ R H) as FX. cbv zeta in FX.
  pose proof (C10_price_direction _ _ _ R H) as DR.
  destruct (reach_swap _ _ _ R H) as (K & _ & _ & _ & r & fm & num & fee & gross & pf & cf & cur & p1 & E & _ & _).
  pose proof (se_facts _ _ _ _ _ _ _ _ _ _ _ E) as SF.
  destruct (effect_applied _ _ _ _ _ _ _ _ _ _ _ E) as (p2 & AP & SM). destruct SM as (SP & SB & SQ & _).
  assert (PR : p_price (w_pool w') = sr_price r) by (rewrite SP; exact (ap_price _ _ _ _ _ _ _ _ _ AP)).
  pose proof (sf_price _ _ _ _ _ _ _ _ SF) as RG. rewrite <- PR in RG.
  assert (BG : sa_dir a = QuoteToBase -> base <= 0).
  { intros D. unfold base. rewrite SB, (ap_base _ _ _ _ _ _ _ _ _ AP), D. cbn [fi_db].
    pose proof (sf_gross _ _ _ _ _ _ _ _ SF). lia. }
  pose proof (iv_price _ (reachable_inv _ R)) as PB.
  pose proof (ok_curve _ K) as CO. pose proof CO as [S [n PAD] NE W M1 M2 MX LQ].
  pose proof (ok_start_min _ K) as SMN. unfold MIN_SQRT_PRICE in SMN.
  clear E AP SF SP SB SQ PR.
  set (c := w_config w) in *. set (p := p_price (w_pool w)) in *. fold price in DR, FX, RG.
  assert (EK : (inject_Z (Z.of_nat (length (curve_points c)) + 2) == inject_Z k - 1)%Q).
  { unfold k. replace (Z.of_nat (length (curve_points c)) + 2) with (Z.of_nat (length (curve_points c)) + 3 + -1) by lia.
    rewrite inject_Z_plus. reflexivity. }
  set (k0 := inject_Z (Z.of_nat (length (curve_points c)) + 2)) in *. assert (K0 : 3 <= k) by (unfold k; lia). clearbody k k0.
  pose proof (fun x => quote_step c x CO) as QS.
  assert (T0 : (0 < inject_Z (2 ^ 128))%Q) by reflexivity.
  assert (SQ : forall x, (0 <= inject_Z (x ^ 2))%Q) by (intros; change 0%Q with (inject_Z 0); rewrite <- Zle_Qle; nia).
  unfold costs_at_most, costs_at_least. destruct (sa_dir a) eqn:D.
  - destruct FX as (F1 & F2). fold base in F2.
    assert (FQ : (exact_quote c p - exact_quote c price - (inject_Z k - 1) <= inject_Z (- quote))%Q).
    { assert (Y : (inject_Z (p_quote (w_pool w) - p_quote (w_pool w')) <= inject_Z (- quote))%Q)
        by (rewrite <- Zle_Qle; unfold quote; lia). lra. } clear F1.
    assert (MB : (exact_base c (price - 1) <= exact_base c price)%Q) by (apply base_area_mono; auto; lia).
    assert (FB : (inject_Z base <= exact_base c p - exact_base c (price - 1)%Z
                  + (if price =? c_start c then step_below c else 0) + (inject_Z k - 1))%Q).
    { destruct (sa_mode a =? 2); lra. } clear F2.
    rewrite Zle_Qle, !inject_Z_mult, inject_Z_plus. unfold Z.sub at 1. rewrite inject_Z_plus, inject_Z_opp.
    set (s2 := inject_Z ((price - 1) ^ 2)). assert (S2 : (0 <= s2)%Q) by apply SQ.
    destruct (price =? c_start c) eqn:PS.
    + assert (PE : price = c_start c) by lia.
      destruct (area_between (curve_points c) (c_start c) price p S W ltac:(lia) DR) as (AB & _). cbv zeta in AB.
      rewrite <- inj_pow2, <- exact_scaled in AB.
      assert (B0 : (exact_base c (price - 1) == exact_base c price)%Q).
      { unfold exact_base. rewrite !base_area_below by (auto; lia). reflexivity. }
      rewrite B0 in FB.
      assert (ST : (step_below c * s2 <= inject_Z (2 ^ 128))%Q).
      { unfold step_below, invQ, s2. rewrite PE, inj_pow2.
        assert (A1 : (0 < inject_Z (c_start c - 1))%Q) by (change 0%Q with (inject_Z 0); rewrite <- Zlt_Qlt; lia).
        assert (A2 : (inject_Z (c_start c) == inject_Z (c_start c - 1) + 1)%Q).
        { change 1%Q with (inject_Z 1). rewrite <- inject_Z_plus. apply inject_Z_injective. lia. }
        rewrite A2. set (y := inject_Z (c_start c - 1)) in *.
        assert (L1 : (inject_Z (first_liquidity c) <= inject_Z (2 ^ 128))%Q).
        { destruct (curve_ok_first _ _ CO) as (p0 & rest & Ecv & Hl0). rewrite Ecv in LQ. inversion LQ as [|? ? U _]; subst.
          cbn in U. unfold u128ok, U128_MAX in U. rewrite <- Zle_Qle. rewrite pow128. unfold Q128. lia. }
        assert (L0 : (0 <= inject_Z (first_liquidity c))%Q).
        { destruct (curve_ok_first _ _ CO) as (p0 & rest & Ecv & Hl0). change 0%Q with (inject_Z 0). rewrite <- Zle_Qle. lia. }
        set (l := inject_Z (first_liquidity c)) in *. clearbody l y.
        assert (EX : ((l / y - l / (y + 1)) * (y * y) == l * (y / (y + 1)))%Q) by (field; split; lra).
        rewrite EX. assert (Y1 : (y / (y + 1) <= 1)%Q) by (apply Qle_shift_div_r; lra).
        assert (Y0 : (0 <= y / (y + 1))%Q) by (apply Qle_shift_div_l; lra).
        set (v := (y / (y + 1))%Q) in *. clearbody v.
        assert (LV : (l * v <= l * 1)%Q) by (rewrite !(Qmult_comm l); apply inj_mult_pos; auto). lra. }
      assert (SL : (s2 <= inject_Z (price ^ 2))%Q) by (unfold s2; rewrite <- Zle_Qle; nia).
      assert (BD : (0 <= exact_base c p - exact_base c price)%Q).
      { assert (exact_base c price <= exact_base c p)%Q by (apply base_area_mono; auto; lia). lra. }
      fold (exact_base c p) (exact_base c price) in AB.
      assert (A2 : ((exact_base c p - exact_base c price) * s2 <= inject_Z (2 ^ 128) * (exact_quote c p - exact_quote c price))%Q).
      { eapply Qle_trans; [|exact AB]. rewrite !(Qmult_comm (exact_base c p - exact_base c price)). apply inj_mult_pos; auto. }
      set (X := (exact_base c p - exact_base c price)%Q) in *. set (Y := (exact_quote c p - exact_quote c price)%Q) in *.
      assert (G1 : ((inject_Z base + - inject_Z k) * s2 <= (X + step_below c) * s2)%Q) by (apply inj_mult_pos; [lra|auto]).
      rewrite (Qmult_plus_distr_l X) in G1.
      assert (G2 : ((Y + 1) * inject_Z (2 ^ 128) <= (inject_Z (- quote) + inject_Z k) * inject_Z (2 ^ 128))%Q)
        by (apply inj_mult_pos; [lra|apply Qlt_le_weak; auto]).
      rewrite Qmult_plus_distr_l, Qmult_1_l, Qmult_comm in G2.
      eapply Qle_trans; [exact G1|]. eapply Qle_trans; [|exact G2]. apply Qplus_le_compat; auto.
    + destruct (area_between (curve_points c) (c_start c) (price - 1) p S W ltac:(lia) ltac:(lia)) as (AB & _). cbv zeta in AB.
      rewrite <- inj_pow2, <- exact_scaled in AB. fold s2 in AB.
      specialize (QS (price - 1)). replace (price - 1 + 1) with price in QS by lia.
      fold (exact_base c p) (exact_base c (price - 1)) in AB.
      set (X := (exact_base c p - exact_base c (price - 1))%Q) in *. set (Y := (exact_quote c p - exact_quote c (price - 1))%Q) in *.
      assert (G1 : ((inject_Z base + - inject_Z k) * s2 <= X * s2)%Q) by (apply inj_mult_pos; [lra|auto]).
      assert (G2 : (Y * inject_Z (2 ^ 128) <= (inject_Z (- quote) + inject_Z k) * inject_Z (2 ^ 128))%Q)
        by (apply inj_mult_pos; [unfold Y; lra|apply Qlt_le_weak; auto]).
      rewrite Qmult_comm in G2. eapply Qle_trans; [exact G1|]. eapply Qle_trans; [exact AB|exact G2].
  - destruct FX as (F1 & F2). fold quote in F1. specialize (BG eq_refl).
    assert (FB : (exact_base c (if sa_mode a =? 2 then price - 1 else price) - exact_base c p - (inject_Z k - 1) <= inject_Z (- base))%Q).
    { assert (Y : (inject_Z (p_base (w_pool w) - p_base (w_pool w')) <= inject_Z (- base))%Q)
        by (rewrite <- Zle_Qle; unfold base; lia). lra. } clear F2.
    rewrite Zle_Qle, !inject_Z_mult, inject_Z_plus. unfold Z.sub at 1. rewrite inject_Z_plus, inject_Z_opp.
    set (s2 := inject_Z (price ^ 2)). assert (S2 : (0 <= s2)%Q) by apply SQ.
    destruct ((sa_mode a =? 2) && (price =? p)) eqn:C1.
    + assert (PE : price = p) by lia. rewrite PE in F1.
      assert (G1 : ((inject_Z quote + - inject_Z k) * inject_Z (2 ^ 128) <= 0 * inject_Z (2 ^ 128))%Q)
        by (apply inj_mult_pos; [lra|apply Qlt_le_weak; auto]).
      rewrite Qmult_0_l in G1. eapply Qle_trans; [exact G1|]. apply Qmult_le_0_compat; auto.
      rewrite <- inject_Z_plus. change 0%Q with (inject_Z 0). rewrite <- Zle_Qle. lia.
    + set (e := if sa_mode a =? 2 then price - 1 else price) in *.
      assert (PE : p <= e <= price) by (unfold e; destruct (sa_mode a =? 2); lia).
      destruct (area_between (curve_points c) (c_start c) p e S W ltac:(lia) ltac:(lia)) as (_ & AB). cbv zeta in AB.
      rewrite <- inj_pow2, <- exact_scaled in AB.
      assert (QE : (exact_quote c price <= exact_quote c e + 1)%Q).
      { unfold e. destruct (sa_mode a =? 2); [|lra]. specialize (QS (price - 1)). replace (price - 1 + 1) with price in QS by lia. exact QS. }
      assert (BD : (0 <= exact_base c e - exact_base c p)%Q).
      { assert (exact_base c p <= exact_base c e)%Q by (apply base_area_mono; auto; lia). lra. }
      fold (exact_base c p) (exact_base c e) in AB.
      set (X := (exact_base c e - exact_base c p)%Q) in *. set (Y := (exact_quote c e - exact_quote c p)%Q) in *.
      assert (SL : (inject_Z (e ^ 2) <= s2)%Q) by (unfold s2; rewrite <- Zle_Qle; nia).
      assert (G1 : ((inject_Z quote + - inject_Z k) * inject_Z (2 ^ 128) <= Y * inject_Z (2 ^ 128))%Q)
        by (apply inj_mult_pos; [unfold Y; lra|apply Qlt_le_weak; auto]).
      rewrite (Qmult_comm Y) in G1. eapply Qle_trans; [exact G1|]. eapply Qle_trans; [exact AB|].
      apply Qle_trans with (X * s2)%Q; [rewrite !(Qmult_comm X); apply inj_mult_pos; auto|].
      apply inj_mult_pos; [lra|auto].
Qed.

(** Over its whole life, a pool sells nothing below the starting price and buys nothing above the migration
    price of its curve. *)
Theorem C87_life : forall w a w' paid got ft x,
  reachable w -> exec w (OSwap a) = Ok w' -> w_log w' = w_log w ++ swap_movements a paid got ft x ->
  match sa_dir a with
  | QuoteToBase => costs_at_least (c_start (w_config w)) got paid
  | BaseToQuote => costs_at_most (c_mig_price (w_config w)) paid got
  end.
Proof.
  intros w a w' paid got ft x R H LG. pose proof (C87_never_better_than_shown _ _ _ _ _ _ _ R H LG) as G.
  pose proof (iv_price _ (reachable_inv _ R)) as PB.
  pose proof (ok_curve _ (created_cfg_ok _ (iv_created _ (reachable_inv _ R)))) as [S _ _ _ _ _ _ _].
  destruct (C01_swap_conserves_tokens _ _ _ R H) as (pd & gt & tr & pr & rf & f & _ & P1 & P2 & _ & _ & _ & _ & L & _).
  rewrite LG in L. apply movements_inj in L. destruct L as (-> & ->).
  unfold costs_at_least, costs_at_most in *. destruct (sa_dir a).
  - eapply Z.le_trans; [exact G|]. apply Z.mul_le_mono_nonneg_l; [lia|]. nia.
  - eapply Z.le_trans; [|exact G]. apply Z.mul_le_mono_nonneg_l; [lia|]. nia.
Qed.

(** Nor does anybody, fees and [k] units of either token aside, buy above the migration price or sell below the
    starting price (one step of its resolution below). *)
Theorem C87_life_worst : forall w a w', reachable w -> exec w (OSwap a) = Ok w' ->
  let base := p_base (w_pool w') - p_base (w_pool w) in
  let quote := p_quote (w_pool w') - p_quote (w_pool w) in
  let k := Z.of_nat (length (curve_points (w_config w))) + 3 in
  match sa_dir a with
  | QuoteToBase => costs_at_most (c_mig_price (w_config w)) (- base + k) (quote - k)
  | BaseToQuote => costs_at_least (c_start (w_config w) - 1) (base - k) (- quote + k)
  end.
Proof.
  intros w a w' R H base quote k. pose proof (C87_never_worse_than_reached _ _ _ R H) as G. cbv zeta in G.
  fold base quote k in G. pose proof (reachable_exec _ _ _ R H) as R'.
  pose proof (iv_price _ (reachable_inv _ R')) as PB.
  assert (C : w_config w' = w_config w) by apply (proj1 (exec_frame _ _ _ (reachable_inv _ R) H)). rewrite C in PB.
  pose proof (ok_curve _ (created_cfg_ok _ (iv_created _ (reachable_inv _ R)))) as [S _ _ _ _ _ _ _].
  destruct (C01_swap_conserves_tokens _ _ _ R H) as (pd & gt & tr & pr & rf & f & _ & P1 & P2 & P3 & P4 & P5 & _ & _ & _ & OUT & _).
  assert (FN : 0 <= on f (token_out (sa_dir a)) (tr + pr + rf)) by (unfold on; destruct f, (sa_dir a); cbn; lia).
  assert (K0 : 0 <= k) by (unfold k; lia).
  assert (T : 0 < 2 ^ 128) by (vm_compute; reflexivity). set (t := 2 ^ 128) in *.
  unfold costs_at_least, costs_at_most in *. fold t in G |- *. clearbody t k.
  destruct (sa_dir a); cbn [token_out reserve] in OUT, FN.
  - assert (Q0 : 0 <= - quote + k) by (unfold quote; lia). clearbody base quote.
    destruct (Z.le_gt_cases 0 (base - k)) as [B|B].
    + eapply Z.le_trans; [|exact G]. apply Z.mul_le_mono_nonneg_l; [exact B|]. apply Z.pow_le_mono_l. lia.
    + apply Z.le_trans with 0; [|apply Z.mul_nonneg_nonneg; lia].
      apply Z.mul_nonpos_nonneg; [lia|]. apply Z.pow_nonneg. lia.
  - eapply Z.le_trans; [exact G|]. apply Z.mul_le_mono_nonneg_l; [unfold base; lia|]. apply Z.pow_le_mono_l. lia.
Qed.

(** ** Cases *)
Definition c87_buy : swap_args := mkSwapArgs 503 None QuoteToBase 0 20000000000 0 1200 1700000100 plain_view.
Definition c87_sell : swap_args := mkSwapArgs 503 (Some 600) BaseToQuote 2 18000000000 9000000000000000 1200 1700000100 plain_view.

(** A purchase; the price after it is higher than what the buyer paid per token, fee included. *)
Example C87_case : exists w' paid got ft x, reachable wA /\ exec wA (OSwap c87_buy) = Ok w'
  /\ w_log w' = w_log wA ++ swap_movements c87_buy paid got ft x
  /\ 0 < got /\ p_price (w_pool wA) < p_price (w_pool w')
  /\ ~ costs_at_least (p_price (w_pool w')) got paid.
Proof.
  eexists _, _, _, TQuote, 0. split; [exact (reachA [])|]. split; [vm_compute; reflexivity|].
  split; [vm_compute; reflexivity|]. split; [reflexivity|]. split; [reflexivity|].
  unfold costs_at_least. vm_compute. intros H. apply H. reflexivity.
Qed.

(** A sale for a named amount; the price after it is lower than what the seller got per token. *)
Example C87_case_sale : exists w' paid got ft x, let w := run wA [OSwap c87_buy] in
  reachable w /\ exec w (OSwap c87_sell) = Ok w'
  /\ w_log w' = w_log w ++ swap_movements c87_sell paid got ft x
  /\ 0 < got /\ p_price (w_pool w') < p_price (w_pool w)
  /\ ~ costs_at_most (p_price (w_pool w')) paid got.
Proof.
  eexists _, _, _, TQuote, _. split; [apply reachA|]. split; [vm_compute; reflexivity|].
  split; [vm_compute; reflexivity|]. split; [reflexivity|]. split; [reflexivity|].
  unfold costs_at_most. vm_compute. intros H. apply H. reflexivity.
Qed.

Print Assumptions C87_never_better_than_shown.
Print Assumptions C87_never_worse_than_reached.
Print Assumptions C87_life.
Print Assumptions C87_life_worst.
