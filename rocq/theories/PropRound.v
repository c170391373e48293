(** * C93: a round trip costs the fees and a few units of rounding, and nothing else. *)
From Coq Require Import ZArith QArith Qround List Bool Lia ZifyBool Lqa.
From Verif Require Import Base MathModel CurveModel FeeModel ConfigModel PoolModel TxModel
  SystemModel Fixtures Spec Lib CurveProofs CurveLoops Potential CalcProofs ConfigProofs FeeProofs
  SwapProofs InvProofs InvOps InvReach FixturesReach PropSwap Steps Walks PropTrade PropFair PropSpot PropLarger PropFirst.
Import ListNotations.
Open Scope Z_scope.
#[local] Arguments Z.pow : simpl never.
#[local] Arguments Z.testbit : simpl never.

(** ** Buying and selling back, in exact terms *)

(** [p0 -> p1] the purchase, [p1 -> p3] the sale; [e1], [e3] are the prices the base amounts are measured at. *)
Lemma there_and_back c p0 p1 e1 e3 f j : curve_ok c (curve_points c) ->
  2 ^ 20 <= c_start c -> c_start c <= p0 -> p0 <= p1 -> p1 - 1 <= e1 <= p1 -> c_start c <= e1 -> c_start c <= e3 <= p1 ->
  (0 <= f + j)%Q ->
  (exact_base c e3 - exact_base c p0 <= exact_base c p1 - exact_base c e1 + f + j)%Q ->
  (inject_Z (2 ^ 128) * (exact_quote c e3 - exact_quote c p0) <= inject_Z (2 ^ 128) * 2 + (f + j) * inject_Z (p1 ^ 2))%Q.
Proof.
  intros CO BIG S0 L01 E1 SE1 E3 FJ H.
  assert (T : (0 <= inject_Z (2 ^ 128))%Q) by (vm_compute; discriminate).
  assert (KS : (0 <= (f + j) * inject_Z (p1 ^ 2))%Q) by (apply Qmult_le_0_compat; [exact FJ|apply sq_nonneg]).
  destruct (Z_le_gt_dec e3 p0) as [C|C].
  - destruct (exact_between c e3 p0 CO ltac:(lia)) as (_ & _ & _ & B).
    assert (G : ((exact_quote c e3 - exact_quote c p0) * inject_Z (2 ^ 128) <= 0 * inject_Z (2 ^ 128))%Q)
      by (apply q_scale; [lra|exact T]).
    rewrite Qmult_0_l, Qmult_comm in G. lra.
  - destruct (exact_between c p0 e3 CO ltac:(lia)) as (_ & A & B & _).
    destruct (exact_between c e1 p1 CO ltac:(lia)) as (A1 & _ & B1 & _).
    pose proof (quote_step c (p1 - 1) CO) as QS. replace (p1 - 1 + 1) with p1 in QS by lia.
    assert (Q1 : (exact_quote c p1 - exact_quote c e1 <= 1)%Q).
    { assert (X : e1 = p1 \/ e1 = p1 - 1) by lia. destruct X as [-> | ->]; lra. }
    set (s := (exact_base c p1 - exact_base c e1)%Q) in *.
    set (q := (exact_quote c p1 - exact_quote c e1)%Q) in *. clearbody q.
    assert (A2 : (s * inject_Z (p1 ^ 2) <= inject_Z (2 ^ 128) * 2)%Q).
    { assert (SQ : (inject_Z (p1 ^ 2) <= inject_Z (e1 ^ 2) * 2)%Q).
      { change 2%Q with (inject_Z 2). rewrite <- inject_Z_mult, <- Zle_Qle. nia. }
      assert (M : (inject_Z (p1 ^ 2) * s <= inject_Z (e1 ^ 2) * 2 * s)%Q) by (apply q_scale; auto).
      assert (M2 : (q * inject_Z (2 ^ 128) <= 1 * inject_Z (2 ^ 128))%Q) by (apply q_scale; auto).
      rewrite (Qmult_comm s) in *. rewrite (Qmult_comm (inject_Z (2 ^ 128)) q) in A1.
      assert (EX : (inject_Z (e1 ^ 2) * 2 * s == 2 * (inject_Z (e1 ^ 2) * s))%Q) by ring. rewrite EX in M. lra. }
    set (x := (exact_base c e3 - exact_base c p0)%Q) in *.
    assert (G1 : (x * inject_Z (e3 ^ 2) <= x * inject_Z (p1 ^ 2))%Q).
    { rewrite !(Qmult_comm x). apply q_scale; [apply sq_mono; lia|exact B]. }
    assert (G2 : (x * inject_Z (p1 ^ 2) <= (s + (f + j)) * inject_Z (p1 ^ 2))%Q)
      by (apply q_scale; [lra|apply sq_nonneg]).
    rewrite Qmult_plus_distr_l in G2. lra.
Qed.

(** ** C93 *)

(** A purchase in any mode, and later, at the price it led to, a sale in any mode that returns at most what the
    purchase took out of the reserve. The sale takes out what the purchase brought in, up to [2k] units of quote
    and the price of [2k] units of base and of the base not returned; [k] is the number of curve points plus four. *)
Theorem C93_buy_and_sell_back : forall w a w1 w2 b w3,
  reachable w -> exec w (OSwap a) = Ok w1 -> sa_dir a = QuoteToBase ->
  reachable w2 -> w_config w2 = w_config w -> p_price (w_pool w2) = p_price (w_pool w1) ->
  exec w2 (OSwap b) = Ok w3 -> sa_dir b = BaseToQuote ->
  let brought := p_quote (w_pool w1) - p_quote (w_pool w) in
  let taken := p_base (w_pool w) - p_base (w_pool w1) in
  let returned := p_base (w_pool w3) - p_base (w_pool w2) in
  let back := p_quote (w_pool w2) - p_quote (w_pool w3) in
  let k := Z.of_nat (length (curve_points (w_config w))) + 4 in
  returned <= taken ->
  costs_at_most (p_price (w_pool w1)) (2 * k + (taken - returned)) (brought - back - 2 * k).
Proof.
  intros w a w1 w2 b w3 R H1 D1 R2 EC EP H2 D2 brought taken returned back k RT.
  pose proof (curve_ok_of _ R) as CO. pose proof (iv_price _ (reachable_inv _ R)) as PB.
  pose proof (ok_start_min _ (created_cfg_ok _ (iv_created _ (reachable_inv _ R)))) as SMN. unfold MIN_SQRT_PRICE in SMN.
  pose proof (C65_fair_execution _ _ _ R H1) as FX. cbv zeta in FX. rewrite D1 in FX. destruct FX as (F1 & F2).
  pose proof (C65_fair_execution _ _ _ R2 H2) as FX. cbv zeta in FX. rewrite D2 in FX. destruct FX as (F3 & F4).
  pose proof (C10_price_direction _ _ _ R H1) as DR1. rewrite D1 in DR1.
  pose proof (C10_price_direction _ _ _ R2 H2) as DR2. rewrite D2 in DR2. cbn [price_moves] in DR1, DR2.
  destruct (price_after _ _ _ R2 H2) as (PA2 & _).
  rewrite EC in F3, F4, PA2. rewrite EP in F3, F4, DR2. set (c := w_config w) in *.
  set (p0 := p_price (w_pool w)) in *. set (p1 := p_price (w_pool w1)) in *. set (p3 := p_price (w_pool w3)) in *.
  fold brought in F1. fold taken in F2. fold back in F3. fold returned in F4.
  assert (KE : (inject_Z (Z.of_nat (length (curve_points c)) + 2) == inject_Z k - 2)%Q).
  { unfold k. replace (Z.of_nat (length (curve_points c)) + 2) with (Z.of_nat (length (curve_points c)) + 4 + -2) by lia.
    rewrite inject_Z_plus. reflexivity. }
  assert (K4 : 4 <= k) by (unfold k; lia). rewrite KE in F1, F2, F3, F4. clear KE. clearbody k.
  assert (KQ : (4 <= inject_Z k)%Q) by (change 4%Q with (inject_Z 4); rewrite <- Zle_Qle; exact K4).
  assert (T : (0 <= inject_Z (2 ^ 128))%Q) by (vm_compute; discriminate).
  assert (FN : (0 <= inject_Z (taken - returned))%Q) by (change 0%Q with (inject_Z 0); rewrite <- Zle_Qle; lia).
  assert (FE : (inject_Z (taken - returned) == inject_Z taken - inject_Z returned)%Q)
    by (unfold Z.sub; rewrite inject_Z_plus, inject_Z_opp; reflexivity).
  assert (KS : (0 <= (inject_Z 2 * inject_Z k + inject_Z (taken - returned)) * inject_Z (p1 ^ 2))%Q)
    by (apply Qmult_le_0_compat; [change (inject_Z 2) with 2%Q; lra|apply sq_nonneg]).
  assert (GOAL : (inject_Z (brought - back - 2 * k) * inject_Z (2 ^ 128)
                  <= (inject_Z 2 * inject_Z k + inject_Z (taken - returned)) * inject_Z (p1 ^ 2))%Q).
  2:{ unfold costs_at_most. rewrite Zle_Qle, !inject_Z_mult, inject_Z_plus, inject_Z_mult. exact GOAL. }
  assert (BE : (inject_Z (brought - back - 2 * k) == inject_Z brought - inject_Z back - 2 * inject_Z k)%Q).
  { change 2%Q with (inject_Z 2). unfold Z.sub. rewrite !inject_Z_plus, !inject_Z_opp, inject_Z_mult. reflexivity. }
  rewrite BE. clear BE.
  assert (LOSS : (inject_Z brought - inject_Z back - 2 * inject_Z k <= exact_quote c p3 - exact_quote c p0 - 4)%Q) by lra.
  destruct (p3 =? c_start c) eqn:P3.
  - assert (E : p3 = c_start c) by lia. destruct (exact_between c p3 p0 CO ltac:(lia)) as (_ & _ & _ & B).
    eapply Qle_trans; [|exact KS]. rewrite <- (Qmult_0_l (inject_Z (2 ^ 128))). apply q_scale; [lra|exact T].
  - set (e1 := if sa_mode a =? 2 then p1 - 1 else p1) in *. set (e3 := if sa_mode b =? 2 then p3 else p3 - 1) in *.
    assert (E1 : p1 - 1 <= e1 <= p1) by (unfold e1; destruct (sa_mode a =? 2); lia).
    assert (E3 : p3 - 1 <= e3 <= p3) by (unfold e3; destruct (sa_mode b =? 2); lia).
    pose proof (quote_step c (p3 - 1) CO) as QS. replace (p3 - 1 + 1) with p3 in QS by lia.
    assert (QX : (exact_quote c p3 <= exact_quote c e3 + 1)%Q) by (unfold e3; destruct (sa_mode b =? 2); lra).
    pose proof (there_and_back c p0 p1 e1 e3 (inject_Z (taken - returned)) (2 * (inject_Z k - 2)) CO ltac:(lia) ltac:(lia)
      DR1 E1 ltac:(lia) ltac:(lia) ltac:(lra) ltac:(lra)) as TB.
    assert (G1 : ((inject_Z brought - inject_Z back - 2 * inject_Z k) * inject_Z (2 ^ 128)
      <= (exact_quote c e3 - exact_quote c p0 - 3) * inject_Z (2 ^ 128))%Q) by (apply q_scale; [lra|exact T]).
    assert (G2 : ((inject_Z (taken - returned) + 2 * (inject_Z k - 2)) * inject_Z (p1 ^ 2)
      <= (inject_Z 2 * inject_Z k + inject_Z (taken - returned)) * inject_Z (p1 ^ 2))%Q)
      by (apply q_scale; [change (inject_Z 2) with 2%Q; lra|apply sq_nonneg]).
    assert (EX : ((exact_quote c e3 - exact_quote c p0 - 3) * inject_Z (2 ^ 128)
      == inject_Z (2 ^ 128) * (exact_quote c e3 - exact_quote c p0) - inject_Z (2 ^ 128) * 3)%Q) by ring.
    rewrite EX in G1. lra.
Qed.

(** ** Selling and buying back *)
Lemma start_step c : curve_ok c (curve_points c) -> MIN_SQRT_PRICE <= c_start c ->
  (step_below c * inject_Z ((c_start c - 1) ^ 2) <= inject_Z (2 ^ 128))%Q.
Proof.
  intros CO SMN. unfold MIN_SQRT_PRICE in SMN. pose proof CO as [_ _ _ _ _ _ _ LQ].
  unfold step_below, invQ. rewrite inj_pow2.
  assert (A1 : (0 < inject_Z (c_start c - 1))%Q) by (change 0%Q with (inject_Z 0); rewrite <- Zlt_Qlt; lia).
  assert (A2 : (inject_Z (c_start c) == inject_Z (c_start c - 1) + 1)%Q).
  { change 1%Q with (inject_Z 1). rewrite <- inject_Z_plus. apply inject_Z_injective. lia. }
  rewrite A2. set (y := inject_Z (c_start c - 1)) in *.
  assert (L1 : (inject_Z (first_liquidity c) <= inject_Z (2 ^ 128))%Q).
  { destruct (curve_ok_first _ _ CO) as (p0 & rest & Ecv & Hl0). rewrite Ecv in LQ. inversion LQ as [|? ? U _]; subst.
    cbn in U. unfold u128ok, U128_MAX in U. rewrite <- Zle_Qle. rewrite pow128. unfold Q128. lia. }
  assert (L0 : (0 <= inject_Z (first_liquidity c))%Q).
  { destruct (curve_ok_first _ _ CO) as (p0 & rest & Ecv & Hl0). change 0%Q with (inject_Z 0). rewrite <- Zle_Qle. lia. }
  set (l := inject_Z (first_liquidity c)) in *. clearbody l y.
  assert (EX : ((l / y - l / (y + 1)) * (y * y) == l * (y / (y + 1)))%Q) by (field; split; lra).
  rewrite EX. assert (Y1 : (y / (y + 1) <= 1)%Q) by (apply Qle_shift_div_r; lra).
  assert (Y0 : (0 <= y / (y + 1))%Q) by (apply Qle_shift_div_l; lra).
  set (v := (y / (y + 1))%Q) in *. clearbody v.
  assert (LV : (l * v <= l * 1)%Q) by (rewrite !(Qmult_comm l); apply inj_mult_pos; auto). lra.
Qed.

(** One step of the price below [x] is worth at most one unit of quote. *)
Lemma last_step c x e : curve_ok c (curve_points c) -> MIN_SQRT_PRICE <= c_start c -> c_start c <= x -> x - 1 <= e <= x ->
  ((exact_base c x - exact_base c e + (if x =? c_start c then step_below c else 0)) * inject_Z ((x - 1) ^ 2) <= inject_Z (2 ^ 128))%Q.
Proof.
  intros CO SMN SX E. pose proof CO as [S _ _ W _ _ _ _].
  assert (T : (0 <= inject_Z (2 ^ 128))%Q) by (vm_compute; discriminate).
  destruct (x =? c_start c) eqn:XE.
  - assert (XX : x = c_start c) by lia.
    assert (B0 : (exact_base c e == exact_base c x)%Q).
    { unfold exact_base. rewrite !base_area_below by (auto; lia). reflexivity. }
    rewrite B0. pose proof (start_step c CO SMN) as ST. rewrite <- XX in ST.
    assert (EX : ((exact_base c x - exact_base c x + step_below c) * inject_Z ((x - 1) ^ 2)
                  == step_below c * inject_Z ((x - 1) ^ 2))%Q) by ring. rewrite EX. exact ST.
  - destruct (exact_between c e x CO ltac:(lia)) as (A & _ & B & _).
    pose proof (quote_step c (x - 1) CO) as QS. replace (x - 1 + 1) with x in QS by lia.
    assert (Q1 : (exact_quote c x - exact_quote c e <= 1)%Q).
    { assert (Y : e = x \/ e = x - 1) by lia. destruct Y as [-> | ->]; lra. }
    rewrite Qplus_0_r. set (s := (exact_base c x - exact_base c e)%Q) in *.
    set (q := (exact_quote c x - exact_quote c e)%Q) in *. clearbody q s.
    assert (M : (inject_Z ((x - 1) ^ 2) * s <= inject_Z (e ^ 2) * s)%Q)
      by (apply q_scale; [apply sq_mono; unfold MIN_SQRT_PRICE in SMN; lia|exact B]).
    assert (M2 : (q * inject_Z (2 ^ 128) <= 1 * inject_Z (2 ^ 128))%Q) by (apply q_scale; auto).
    rewrite (Qmult_comm s) in *. rewrite (Qmult_comm (inject_Z (2 ^ 128)) q) in A. lra.
Qed.

(** A sale in any mode, and later, at the price it led to, a purchase in any mode that brings at most what the sale
    took out of the reserve. The purchase takes out the base that the sale brought, up to [2k] units of base and
    what [2k] units of quote and the quote not returned buy at the price the sale led to, less one step;
    [k] is the number of curve points plus three. *)
Theorem C93_sell_and_buy_back : forall w a w1 w2 b w3,
  reachable w -> exec w (OSwap a) = Ok w1 -> sa_dir a = BaseToQuote ->
  reachable w2 -> w_config w2 = w_config w -> p_price (w_pool w2) = p_price (w_pool w1) ->
  exec w2 (OSwap b) = Ok w3 -> sa_dir b = QuoteToBase ->
  let brought := p_base (w_pool w1) - p_base (w_pool w) in
  let taken := p_quote (w_pool w) - p_quote (w_pool w1) in
  let returned := p_quote (w_pool w3) - p_quote (w_pool w2) in
  let back := p_base (w_pool w2) - p_base (w_pool w3) in
  let k := Z.of_nat (length (curve_points (w_config w))) + 3 in
  returned <= taken ->
  costs_at_least (p_price (w_pool w1) - 1) (brought - back - 2 * k) (2 * k + (taken - returned)).
Proof.
  intros w a w1 w2 b w3 R H1 D1 R2 EC EP H2 D2 brought taken returned back k RT.
  pose proof (curve_ok_of _ R) as CO. pose proof (iv_price _ (reachable_inv _ R)) as PB.
  pose proof (ok_start_min _ (created_cfg_ok _ (iv_created _ (reachable_inv _ R)))) as SMN.
  pose proof (C65_fair_execution _ _ _ R H1) as FX. cbv zeta in FX. rewrite D1 in FX. destruct FX as (F1 & F2).
  pose proof (C65_fair_execution _ _ _ R2 H2) as FX. cbv zeta in FX. rewrite D2 in FX. destruct FX as (F3 & F4).
  pose proof (C10_price_direction _ _ _ R H1) as DR1. rewrite D1 in DR1.
  pose proof (C10_price_direction _ _ _ R2 H2) as DR2. rewrite D2 in DR2. cbn [price_moves] in DR1, DR2.
  destruct (price_after _ _ _ R H1) as (PA1 & _). destruct (price_after _ _ _ R2 H2) as (PA2 & BG). specialize (BG D2).
  rewrite EC in F3, F4, PA2. rewrite EP in F3, F4, DR2. set (c := w_config w) in *.
  set (p0 := p_price (w_pool w)) in *. set (p1 := p_price (w_pool w1)) in *. set (p3 := p_price (w_pool w3)) in *.
  fold taken in F1. fold brought in F2. fold returned in F3. fold back in F4.
  assert (KE : (inject_Z (Z.of_nat (length (curve_points c)) + 2) == inject_Z k - 1)%Q).
  { unfold k. replace (Z.of_nat (length (curve_points c)) + 2) with (Z.of_nat (length (curve_points c)) + 3 + -1) by lia.
    rewrite inject_Z_plus. reflexivity. }
  assert (K3 : 3 <= k) by (unfold k; lia). rewrite KE in F1, F2, F3, F4. clear KE. clearbody k.
  assert (KQ : (3 <= inject_Z k)%Q) by (change 3%Q with (inject_Z 3); rewrite <- Zle_Qle; exact K3).
  assert (T : (0 <= inject_Z (2 ^ 128))%Q) by (vm_compute; discriminate).
  assert (FN : (0 <= inject_Z (taken - returned))%Q) by (change 0%Q with (inject_Z 0); rewrite <- Zle_Qle; lia).
  assert (FE : (inject_Z (taken - returned) == inject_Z taken - inject_Z returned)%Q)
    by (unfold Z.sub; rewrite inject_Z_plus, inject_Z_opp; reflexivity).
  assert (B0 : (0 <= inject_Z back)%Q) by (change 0%Q with (inject_Z 0); rewrite <- Zle_Qle; unfold back; lia).
  set (e1 := if sa_mode a =? 2 then p1 else p1 - 1) in *.
  assert (E1 : p1 - 1 <= e1 <= p1) by (unfold e1; destruct (sa_mode a =? 2); lia).
  pose proof (last_step c p1 e1 CO SMN ltac:(lia) E1) as LS.
  set (st := if p1 =? c_start c then step_below c else 0%Q) in *.
  assert (MID : exists e, p1 <= e /\ (exact_quote c p3 <= exact_quote c e + 1)%Q
                /\ (exact_base c e - exact_base c p1 - (inject_Z k - 1) <= inject_Z back)%Q).
  { pose proof (quote_step c (p3 - 1) CO) as QS. replace (p3 - 1 + 1) with p3 in QS by lia.
    destruct (sa_mode b =? 2) eqn:MB; [|exists p3; split; [lia|split; lra]].
    destruct (Z_le_gt_dec p1 (p3 - 1)) as [L|L]; [exists (p3 - 1); split; [lia|split; lra]|].
    exists p1. assert (E : p3 = p1) by lia. rewrite E. split; [lia|]. split; lra. }
  destruct MID as (e & PE & QE & BE).
  assert (S0 : (0 <= inject_Z ((p1 - 1) ^ 2))%Q) by apply sq_nonneg. set (s := inject_Z ((p1 - 1) ^ 2)) in *.
  assert (BB : ((exact_base c p0 - exact_base c e) * s
    <= inject_Z (2 ^ 128) * (2 * (inject_Z k - 1) + inject_Z (taken - returned) + 1))%Q).
  { assert (R0 : (0 <= inject_Z (2 ^ 128) * (2 * (inject_Z k - 1) + inject_Z (taken - returned) + 1))%Q)
      by (apply Qmult_le_0_compat; [exact T|lra]).
    destruct (Z_le_gt_dec p0 e) as [L|L].
    - destruct (exact_between c p0 e CO ltac:(lia)) as (_ & _ & B & _).
      eapply Qle_trans; [|exact R0]. rewrite <- (Qmult_0_l s). apply q_scale; [lra|exact S0].
    - destruct (exact_between c e p0 CO ltac:(lia)) as (A & _ & B & _).
      set (x := (exact_base c p0 - exact_base c e)%Q) in *.
      assert (G1 : (x * s <= x * inject_Z (e ^ 2))%Q).
      { rewrite !(Qmult_comm x). apply q_scale; [apply sq_mono; unfold MIN_SQRT_PRICE in SMN; lia|exact B]. }
      eapply Qle_trans; [exact G1|]. eapply Qle_trans; [exact A|].
      rewrite !(Qmult_comm (inject_Z (2 ^ 128))). apply q_scale; [lra|exact T]. }
  unfold costs_at_least. fold p1. rewrite Zle_Qle, !inject_Z_mult, inject_Z_plus, inject_Z_mult. fold s.
  assert (EQ1 : (inject_Z (brought - back - 2 * k) == inject_Z brought - inject_Z back - 2 * inject_Z k)%Q).
  { change 2%Q with (inject_Z 2). unfold Z.sub. rewrite !inject_Z_plus, !inject_Z_opp, inject_Z_mult. reflexivity. }
  rewrite EQ1. change (inject_Z 2) with 2%Q. clear EQ1.
  assert (G : ((inject_Z brought - inject_Z back - 2 * inject_Z k) * s
     <= ((exact_base c p0 - exact_base c e) + (exact_base c p1 - exact_base c e1 + st)) * s)%Q)
    by (apply q_scale; [lra|exact S0]).
  rewrite (Qmult_plus_distr_l (exact_base c p0 - exact_base c e)) in G.
  assert (EX : ((2 * inject_Z k + inject_Z (taken - returned)) * inject_Z (2 ^ 128)
    == inject_Z (2 ^ 128) * (2 * (inject_Z k - 1) + inject_Z (taken - returned) + 1) + inject_Z (2 ^ 128))%Q) by ring.
  rewrite EX. lra.
Qed.

(** ** What the trader sees *)
Lemma legs w a w' paid got ft rf : reachable w -> exec w (OSwap a) = Ok w' ->
  w_log w' = w_log w ++ swap_movements a paid got ft rf ->
  let fee := fee_charged w w' a paid got in
  0 <= fee
  /\ reserve (token_in (sa_dir a)) (w_pool w') - reserve (token_in (sa_dir a)) (w_pool w)
     = paid - (if on_input w (sa_dir a) then fee else 0)
  /\ reserve (token_out (sa_dir a)) (w_pool w) - reserve (token_out (sa_dir a)) (w_pool w')
     = got + (if on_input w (sa_dir a) then 0 else fee).
Proof.
  intros R H LG. destruct (reach_swap _ _ _ R H) as (K & F & HA & _ & r & fm & num & f & gross & pf & cf & cur & p1 & E & PRE & PS).
  pose proof (log_movements _ _ _ _ _ _ _ _ _ _ _ E) as L2. rewrite L2 in LG.
  apply movements_inj in LG. destruct LG as (P & G). subst paid got.
  pose proof (fee_mode_on_input _ _ _ _ (se_fm _ _ _ _ _ _ _ _ _ _ _ E)) as OI. rewrite <- OI.
  pose proof (se_facts _ _ _ _ _ _ _ _ _ _ _ E) as SF.
  pose proof (sf_fee_nonneg _ _ _ _ _ _ _ _ SF) as FN.
  pose proof (sf_in _ _ _ _ _ _ _ _ SF) as SI. pose proof (sf_out _ _ _ _ _ _ _ _ SF) as SO.
  destruct (effect_applied _ _ _ _ _ _ _ _ _ _ _ E) as (p2 & AP & SM).
  pose proof (ap_base _ _ _ _ _ _ _ _ _ AP) as AB. pose proof (ap_quote _ _ _ _ _ _ _ _ _ AP) as AQ.
  assert (B2 : p_base (w_pool w') = p_base p2) by apply SM.
  assert (Q2 : p_quote (w_pool w') = p_quote p2) by apply SM.
  unfold fee_charged. cbv zeta. destruct (sa_dir a); cbn [token_in token_out reserve fi_db fi_dq] in *;
  destruct (fm_on_input fm); lia.
Qed.

(** Someone buys, and later sells everything they got at the price their purchase led to. What they are short of then is the fees,
    and [2k] units of quote and the price of [2k] units of base. If fees are taken in the output token, the fee of the
    purchase is an amount of base, counted at that price. *)
Theorem C93_round_trip : forall w a w1 w2 b w3 paid got ft rf back ft' rf',
  reachable w -> exec w (OSwap a) = Ok w1 -> sa_dir a = QuoteToBase ->
  reachable w2 -> w_config w2 = w_config w -> p_price (w_pool w2) = p_price (w_pool w1) ->
  exec w2 (OSwap b) = Ok w3 -> sa_dir b = BaseToQuote ->
  w_log w1 = w_log w ++ swap_movements a paid got ft rf ->
  w_log w3 = w_log w2 ++ swap_movements b got back ft' rf' ->
  let fee_in := fee_charged w w1 a paid got in
  let fee_out := fee_charged w2 w3 b got back in
  let k := Z.of_nat (length (curve_points (w_config w))) + 4 in
  if c_collect_fee_mode (w_config w) =? 0
  then costs_at_most (p_price (w_pool w1)) (2 * k) (paid - back - fee_in - fee_out - 2 * k)
  else costs_at_most (p_price (w_pool w1)) (2 * k + fee_in) (paid - back - fee_out - 2 * k).
Proof.
  intros w a w1 w2 b w3 paid got ft rf back ft' rf' R H1 D1 R2 EC EP H2 D2 L1 L2 fi fo k.
  destruct (legs _ _ _ _ _ _ _ R H1 L1) as (N1 & I1 & O1). destruct (legs _ _ _ _ _ _ _ R2 H2 L2) as (N2 & I2 & O2).
  pose proof (C93_buy_and_sell_back w a w1 w2 b w3 R H1 D1 R2 EC EP H2 D2) as G. cbv zeta in G. fold k in G.
  fold fi in N1, I1, O1. fold fo in N2, I2, O2. clearbody fi fo k.
  unfold on_input in *. rewrite D1 in I1, O1. rewrite D2 in I2, O2. cbn [token_in token_out reserve] in *.
  rewrite EC in I2, O2. destruct (c_collect_fee_mode (w_config w) =? 0); cbn [andb] in *; specialize (G ltac:(lia)).
  - replace (paid - back - fi - fo - 2 * k) with
      (p_quote (w_pool w1) - p_quote (w_pool w) - (p_quote (w_pool w2) - p_quote (w_pool w3)) - 2 * k) by lia.
    replace (2 * k) with (2 * k + (p_base (w_pool w) - p_base (w_pool w1) - (p_base (w_pool w3) - p_base (w_pool w2)))) at 1 by lia.
    exact G.
  - replace (paid - back - fo - 2 * k) with
      (p_quote (w_pool w1) - p_quote (w_pool w) - (p_quote (w_pool w2) - p_quote (w_pool w3)) - 2 * k) by lia.
    replace (2 * k + fi) with (2 * k + (p_base (w_pool w) - p_base (w_pool w1) - (p_base (w_pool w3) - p_base (w_pool w2)))) by lia.
    exact G.
Qed.

(** Someone sells, and later spends everything they got at the price their sale led to. *)
Theorem C93_reverse_round_trip : forall w a w1 w2 b w3 sold got ft rf back ft' rf',
  reachable w -> exec w (OSwap a) = Ok w1 -> sa_dir a = BaseToQuote ->
  reachable w2 -> w_config w2 = w_config w -> p_price (w_pool w2) = p_price (w_pool w1) ->
  exec w2 (OSwap b) = Ok w3 -> sa_dir b = QuoteToBase ->
  w_log w1 = w_log w ++ swap_movements a sold got ft rf ->
  w_log w3 = w_log w2 ++ swap_movements b got back ft' rf' ->
  let fee_in := fee_charged w w1 a sold got in
  let fee_out := fee_charged w2 w3 b got back in
  let k := Z.of_nat (length (curve_points (w_config w))) + 3 in
  if c_collect_fee_mode (w_config w) =? 0
  then costs_at_least (p_price (w_pool w1) - 1) (sold - back - 2 * k) (2 * k + fee_in + fee_out)
  else costs_at_least (p_price (w_pool w1) - 1) (sold - back - fee_out - 2 * k) (2 * k + fee_in).
Proof.
  intros w a w1 w2 b w3 sold got ft rf back ft' rf' R H1 D1 R2 EC EP H2 D2 L1 L2 fi fo k.
  destruct (legs _ _ _ _ _ _ _ R H1 L1) as (N1 & I1 & O1). destruct (legs _ _ _ _ _ _ _ R2 H2 L2) as (N2 & I2 & O2).
  pose proof (C93_sell_and_buy_back w a w1 w2 b w3 R H1 D1 R2 EC EP H2 D2) as G. cbv zeta in G. fold k in G.
  fold fi in N1, I1, O1. fold fo in N2, I2, O2. clearbody fi fo k.
  unfold on_input in *. rewrite D1 in I1, O1. rewrite D2 in I2, O2. cbn [token_in token_out reserve] in *.
  rewrite EC in I2, O2. destruct (c_collect_fee_mode (w_config w) =? 0); cbn [andb] in *; specialize (G ltac:(lia)).
  - replace (2 * k + fi + fo) with
      (2 * k + (p_quote (w_pool w) - p_quote (w_pool w1) - (p_quote (w_pool w3) - p_quote (w_pool w2)))) by lia.
    replace (sold - back - 2 * k) with (p_base (w_pool w1) - p_base (w_pool w) - (p_base (w_pool w2) - p_base (w_pool w3)) - 2 * k) by lia.
    exact G.
  - replace (2 * k + fi) with
      (2 * k + (p_quote (w_pool w) - p_quote (w_pool w1) - (p_quote (w_pool w3) - p_quote (w_pool w2)))) by lia.
    replace (sold - back - fo - 2 * k) with (p_base (w_pool w1) - p_base (w_pool w) - (p_base (w_pool w2) - p_base (w_pool w3)) - 2 * k) by lia.
    exact G.
Qed.

(** ** The hypotheses can be met *)
Definition after_buy : world := run wF [OSwap (req QuoteToBase 0 30000000000 0 1700000000)].

(** Thirty billion units of quote to buy, everything sold thirty seconds later: the two fees are 300000000 and
    297000000, and rounding takes seven more units, less than half the price of one unit of base. *)
Example C93_case_round_trip : exists got back w3,
  let a := req QuoteToBase 0 30000000000 0 1700000000 in let b := req BaseToQuote 0 got 0 1700000030 in
  reachable wF /\ exec wF (OSwap a) = Ok after_buy /\ reachable after_buy
  /\ exec after_buy (OSwap b) = Ok w3
  /\ w_log after_buy = w_log wF ++ swap_movements a 30000000000 got TQuote 0
  /\ w_log w3 = w_log after_buy ++ swap_movements b got back TQuote 0
  /\ fee_charged wF after_buy a 30000000000 got = 300000000
  /\ fee_charged after_buy w3 b got back = 297000000
  /\ 30000000000 - back - 300000000 - 297000000 = 7.
Proof.
  exists 1727949732, 29402999993. eexists _. cbv zeta. split; [exact (reachF [])|]. split; [vm_compute; reflexivity|].
  split; [exact (reachF [OSwap (req QuoteToBase 0 30000000000 0 1700000000)])|].
  split; [vm_compute; reflexivity|]. split; [vm_compute; reflexivity|]. split; [vm_compute; reflexivity|].
  split; [vm_compute; reflexivity|]. split; [vm_compute; reflexivity|]. vm_compute. reflexivity.
Qed.

(** The other way round: a billion units of base sold at about 17 units of quote, the proceeds spent thirty seconds later. The fees of
    352299453 units of quote would have bought about the 19095784 units of base that are missing. *)
Definition after_sale : world :=
  run wF [OSwap (req QuoteToBase 0 30000000000 0 1700000000); OSwap (req BaseToQuote 0 1000000000 0 1700000030)].
Example C93_case_reverse : exists w3,
  let a := req BaseToQuote 0 1000000000 0 1700000030 in let b := req QuoteToBase 0 17526455131 0 1700000060 in
  reachable after_buy /\ exec after_buy (OSwap a) = Ok after_sale /\ reachable after_sale
  /\ exec after_sale (OSwap b) = Ok w3
  /\ w_log after_sale = w_log after_buy ++ swap_movements a 1000000000 17526455131 TQuote 0
  /\ w_log w3 = w_log after_sale ++ swap_movements b 17526455131 980904216 TQuote 0
  /\ fee_charged after_buy after_sale a 1000000000 17526455131 = 177034901
  /\ fee_charged after_sale w3 b 17526455131 980904216 = 175264552.
Proof.
  eexists _. cbv zeta. split; [exact (reachF [OSwap (req QuoteToBase 0 30000000000 0 1700000000)])|]. split; [vm_compute; reflexivity|].
  split; [exact (reachF [OSwap (req QuoteToBase 0 30000000000 0 1700000000); OSwap (req BaseToQuote 0 1000000000 0 1700000030)])|].
  split; [vm_compute; reflexivity|]. split; [vm_compute; reflexivity|]. split; [vm_compute; reflexivity|].
  split; vm_compute; reflexivity.
Qed.

Print Assumptions C93_buy_and_sell_back.
Print Assumptions C93_sell_and_buy_back.
Print Assumptions C93_round_trip.
Print Assumptions C93_reverse_round_trip.
