(** * C92: whoever comes first buys cheaper, and whoever sells at the higher price gets more. *)
From Coq Require Import ZArith QArith Qround List Bool Lia ZifyBool Lqa.
From Verif Require Import Base MathModel CurveModel FeeModel ConfigModel PoolModel TxModel
  SystemModel Fixtures Spec Lib CurveProofs CurveLoops Potential CalcProofs ConfigProofs FeeProofs
  SwapProofs InvProofs InvOps InvReach FixturesReach PropSwap Steps Walks PropTrade PropFair PropSpot.
Import ListNotations.
Open Scope Z_scope.
#[local] Arguments Z.pow : simpl never.
#[local] Arguments Z.testbit : simpl never.

(** ** The curve: equal steps of one reserve at different places *)
Lemma sq_nonneg x : (0 <= inject_Z (x ^ 2))%Q.
Proof. change 0%Q with (inject_Z 0). rewrite <- Zle_Qle. nia. Qed.
Lemma sq_mono x y : 0 <= x <= y -> (inject_Z (x ^ 2) <= inject_Z (y ^ 2))%Q.
Proof. intros. rewrite <- Zle_Qle. nia. Qed.

Lemma exact_between c x y : curve_ok c (curve_points c) -> c_start c <= x <= y ->
  ((exact_base c y - exact_base c x) * inject_Z (x ^ 2) <= inject_Z (2 ^ 128) * (exact_quote c y - exact_quote c x)
   /\ inject_Z (2 ^ 128) * (exact_quote c y - exact_quote c x) <= (exact_base c y - exact_base c x) * inject_Z (y ^ 2)
   /\ 0 <= exact_base c y - exact_base c x /\ 0 <= exact_quote c y - exact_quote c x)%Q.
Proof.
  intros CO XY. pose proof CO as [S _ _ W _ _ _ _].
  destruct (area_between (curve_points c) (c_start c) x y S W ltac:(lia) ltac:(lia)) as (A & B). cbv zeta in A, B.
  rewrite <- inj_pow2, <- exact_scaled in A, B. fold (exact_base c x) (exact_base c y) in A, B.
  split; [exact A|]. split; [exact B|].
  pose proof (base_area_mono (c_start c) (curve_points c) x y S W ltac:(lia)) as M.
  fold (exact_base c x) (exact_base c y) in M. split; [lra|].
  pose proof (quote_area_mono (c_start c) (curve_points c) x y W ltac:(lia)) as N. rewrite Zle_Qle in N.
  unfold exact_quote. assert (T : (0 < inject_Z (2 ^ 128))%Q) by reflexivity.
  assert (D : (inject_Z (quote_area (c_start c) (curve_points c) x) / inject_Z (2 ^ 128)
               <= inject_Z (quote_area (c_start c) (curve_points c) y) / inject_Z (2 ^ 128))%Q).
  { unfold Qdiv. apply Qmult_le_compat_r; [exact N|]. apply Qlt_le_weak, Qinv_lt_0_compat, T. }
  lra.
Qed.

Lemma q_scale (x y z : Q) : (x <= y -> 0 <= z -> x * z <= y * z)%Q.
Proof. intros. apply Qmult_le_compat_r; auto. Qed.

(** Purchases: from the higher place the same quote buys less. *)
Lemma buy_places c p1 e1 p2 e2 k : curve_ok c (curve_points c) ->
  c_start c <= p1 -> p1 <= e1 -> p1 <= p2 -> p2 <= e2 -> (0 <= k)%Q ->
  (exact_quote c e2 - exact_quote c p2 <= exact_quote c e1 - exact_quote c p1 + k)%Q ->
  (((exact_base c e2 - exact_base c p2) - (exact_base c e1 - exact_base c p1)) * inject_Z (p2 ^ 2)
   <= inject_Z (2 ^ 128) * k)%Q.
Proof.
  intros CO S1 L1 L2 L3 K H. assert (SP : 0 < c_start c) by (destruct CO; assumption).
  assert (T : (0 <= inject_Z (2 ^ 128))%Q) by (vm_compute; discriminate).
  pose proof (sq_nonneg p2) as S2. set (s2 := inject_Z (p2 ^ 2)) in *.
  assert (TK : (0 <= inject_Z (2 ^ 128) * k)%Q) by (apply Qmult_le_0_compat; auto).
  destruct (Z_le_gt_dec e2 e1) as [C1|C1].
  - (* inside *)
    destruct (exact_between c e2 e1 CO ltac:(lia)) as (_ & _ & B1 & _).
    destruct (exact_between c p1 p2 CO ltac:(lia)) as (_ & _ & B2 & _).
    assert (G : (((exact_base c e2 - exact_base c p2) - (exact_base c e1 - exact_base c p1)) * s2 <= 0 * s2)%Q)
      by (apply q_scale; [lra|exact S2]).
    rewrite Qmult_0_l in G. lra.
  - destruct (Z_le_gt_dec p2 e1) as [C2|C2].
    + (* overlapping *)
      destruct (exact_between c e1 e2 CO ltac:(lia)) as (A1 & _ & B1 & _).
      destruct (exact_between c p1 p2 CO ltac:(lia)) as (_ & A2 & B2 & _). fold s2 in A2.
      pose proof (sq_mono p2 e1 ltac:(lia)) as SM. fold s2 in SM.
      assert (G1 : ((exact_base c e2 - exact_base c e1) * s2 <= (exact_base c e2 - exact_base c e1) * inject_Z (e1 ^ 2))%Q)
        by (rewrite !(Qmult_comm (exact_base c e2 - exact_base c e1)); apply q_scale; auto).
      assert (G2 : (inject_Z (2 ^ 128) * (exact_quote c e2 - exact_quote c e1)
                    <= inject_Z (2 ^ 128) * (exact_quote c p2 - exact_quote c p1 + k))%Q).
      { rewrite !(Qmult_comm (inject_Z (2 ^ 128))). apply q_scale; [lra|exact T]. }
      rewrite (Qmult_plus_distr_r (inject_Z (2 ^ 128))) in G2.
      assert (EX : (((exact_base c e2 - exact_base c p2) - (exact_base c e1 - exact_base c p1)) * s2
        == (exact_base c e2 - exact_base c e1) * s2 - (exact_base c p2 - exact_base c p1) * s2)%Q) by ring.
      rewrite EX. lra.
    + (* apart *)
      destruct (exact_between c p2 e2 CO ltac:(lia)) as (A1 & _ & B1 & _). fold s2 in A1.
      destruct (exact_between c p1 e1 CO ltac:(lia)) as (_ & A2 & B2 & _).
      pose proof (sq_mono e1 p2 ltac:(lia)) as SM. fold s2 in SM.
      assert (G1 : ((exact_base c e1 - exact_base c p1) * inject_Z (e1 ^ 2) <= (exact_base c e1 - exact_base c p1) * s2)%Q)
        by (rewrite !(Qmult_comm (exact_base c e1 - exact_base c p1)); apply q_scale; auto).
      assert (G2 : (inject_Z (2 ^ 128) * (exact_quote c e2 - exact_quote c p2)
                    <= inject_Z (2 ^ 128) * (exact_quote c e1 - exact_quote c p1 + k))%Q).
      { rewrite !(Qmult_comm (inject_Z (2 ^ 128))). apply q_scale; [lra|exact T]. }
      rewrite (Qmult_plus_distr_r (inject_Z (2 ^ 128))) in G2.
      assert (EX : (((exact_base c e2 - exact_base c p2) - (exact_base c e1 - exact_base c p1)) * s2
        == (exact_base c e2 - exact_base c p2) * s2 - (exact_base c e1 - exact_base c p1) * s2)%Q) by ring.
      rewrite EX. lra.
Qed.

(** Sales: from the lower place the same base earns less. *)
Lemma sell_places c p1 e1 p2 e2 k : curve_ok c (curve_points c) ->
  c_start c <= e1 -> e1 <= p1 -> p1 <= p2 -> c_start c <= e2 -> e2 <= p2 -> (0 <= k)%Q ->
  (exact_base c p1 - exact_base c e1 <= exact_base c p2 - exact_base c e2 + k)%Q ->
  (inject_Z (2 ^ 128) * ((exact_quote c p1 - exact_quote c e1) - (exact_quote c p2 - exact_quote c e2))
   <= k * inject_Z (p1 ^ 2))%Q.
Proof.
  intros CO S1 L1 L2 S2 L3 K H. assert (SP : 0 < c_start c) by (destruct CO; assumption).
  assert (T : (0 <= inject_Z (2 ^ 128))%Q) by (vm_compute; discriminate).
  pose proof (sq_nonneg p1) as Q1. set (s1 := inject_Z (p1 ^ 2)) in *.
  assert (KS : (0 <= k * s1)%Q) by (apply Qmult_le_0_compat; auto).
  destruct (Z_le_gt_dec e2 e1) as [C1|C1].
  - destruct (exact_between c e2 e1 CO ltac:(lia)) as (_ & _ & _ & B1).
    destruct (exact_between c p1 p2 CO ltac:(lia)) as (_ & _ & _ & B2).
    assert (G : (((exact_quote c p1 - exact_quote c e1) - (exact_quote c p2 - exact_quote c e2)) * inject_Z (2 ^ 128) <= 0 * inject_Z (2 ^ 128))%Q)
      by (apply q_scale; [lra|exact T]).
    rewrite Qmult_0_l in G. rewrite Qmult_comm. lra.
  - destruct (Z_le_gt_dec e2 p1) as [C2|C2].
    + destruct (exact_between c e1 e2 CO ltac:(lia)) as (_ & A1 & B1 & _).
      destruct (exact_between c p1 p2 CO ltac:(lia)) as (A2 & _ & B2 & _). fold s1 in A2.
      pose proof (sq_mono e2 p1 ltac:(lia)) as SM. fold s1 in SM.
      assert (G1 : ((exact_base c e2 - exact_base c e1) * inject_Z (e2 ^ 2) <= (exact_base c e2 - exact_base c e1) * s1)%Q)
        by (rewrite !(Qmult_comm (exact_base c e2 - exact_base c e1)); apply q_scale; auto).
      assert (G2 : ((exact_base c e2 - exact_base c e1) * s1 <= (exact_base c p2 - exact_base c p1 + k) * s1)%Q)
        by (apply q_scale; [lra|exact Q1]).
      rewrite Qmult_plus_distr_l in G2.
      assert (EX : (inject_Z (2 ^ 128) * ((exact_quote c p1 - exact_quote c e1) - (exact_quote c p2 - exact_quote c e2))
        == inject_Z (2 ^ 128) * (exact_quote c e2 - exact_quote c e1) - inject_Z (2 ^ 128) * (exact_quote c p2 - exact_quote c p1))%Q) by ring.
      rewrite EX. lra.
    + destruct (exact_between c e1 p1 CO ltac:(lia)) as (_ & A1 & B1 & _). fold s1 in A1.
      destruct (exact_between c e2 p2 CO ltac:(lia)) as (A2 & _ & B2 & _).
      pose proof (sq_mono p1 e2 ltac:(lia)) as SM. fold s1 in SM.
      assert (G1 : ((exact_base c p2 - exact_base c e2) * s1 <= (exact_base c p2 - exact_base c e2) * inject_Z (e2 ^ 2))%Q)
        by (rewrite !(Qmult_comm (exact_base c p2 - exact_base c e2)); apply q_scale; auto).
      assert (G2 : ((exact_base c p1 - exact_base c e1) * s1 <= (exact_base c p2 - exact_base c e2 + k) * s1)%Q)
        by (apply q_scale; [lra|exact Q1]).
      rewrite Qmult_plus_distr_l in G2.
      assert (EX : (inject_Z (2 ^ 128) * ((exact_quote c p1 - exact_quote c e1) - (exact_quote c p2 - exact_quote c e2))
        == inject_Z (2 ^ 128) * (exact_quote c p1 - exact_quote c e1) - inject_Z (2 ^ 128) * (exact_quote c p2 - exact_quote c e2))%Q) by ring.
      rewrite EX. lra.
Qed.

(** What a trade does to the reserves, against the curve. *)
Lemma curve_ok_of w : reachable w -> curve_ok (w_config w) (curve_points (w_config w)).
Proof. intros R. exact (ok_curve _ (created_cfg_ok _ (iv_created _ (reachable_inv _ R)))). Qed.

Lemma price_after w a w' : reachable w -> exec w (OSwap a) = Ok w' ->
  c_start (w_config w) <= p_price (w_pool w') <= c_mig_price (w_config w)
  /\ (sa_dir a = QuoteToBase -> p_base (w_pool w') <= p_base (w_pool w)).
Proof.
  intros R H.
  destruct (reach_swap _ _ _ R H) as (K & _ & _ & _ & r & fm & num & fee & gross & pf & cf & cur & p1 & E & _ & _).
  pose proof (se_facts _ _ _ _ _ _ _ _ _ _ _ E) as SF.
  destruct (effect_applied _ _ _ _ _ _ _ _ _ _ _ E) as (p2 & AP & SM). destruct SM as (SP & SB & _).
  rewrite SP, (ap_price _ _ _ _ _ _ _ _ _ AP). split; [exact (sf_price _ _ _ _ _ _ _ _ SF)|].
  intros D. rewrite SB, (ap_base _ _ _ _ _ _ _ _ _ AP), D. cbn [fi_db].
  pose proof (sf_gross _ _ _ _ _ _ _ _ SF). lia.
Qed.

(** ** C92 *)

(** Two purchases, in any modes, from two states of pools with the same config (two moments of one pool, or
    two pools), the second at a price at least as high. If no more quote reaches the reserve in the second
    than in the first, then it takes no more base out, up to [k] units of base and what [k] units of quote buy at its price;
    [k] is the number of curve points plus three. *)
Theorem C92_first_buys_cheaper : forall w1 a1 w1' w2 a2 w2',
  reachable w1 -> reachable w2 -> w_config w2 = w_config w1 ->
  sa_dir a1 = QuoteToBase -> sa_dir a2 = QuoteToBase ->
  exec w1 (OSwap a1) = Ok w1' -> exec w2 (OSwap a2) = Ok w2' ->
  p_price (w_pool w1) <= p_price (w_pool w2) ->
  p_quote (w_pool w2') - p_quote (w_pool w2) <= p_quote (w_pool w1') - p_quote (w_pool w1) ->
  let k := Z.of_nat (length (curve_points (w_config w1))) + 3 in
  let out1 := p_base (w_pool w1) - p_base (w_pool w1') in
  let out2 := p_base (w_pool w2) - p_base (w_pool w2') in
  costs_at_least (p_price (w_pool w2)) (out2 - out1 - k) k.
Proof.
  intros w1 a1 w1' w2 a2 w2' R1 R2 EC D1 D2 H1 H2 PP QQ k out1 out2.
  pose proof (curve_ok_of _ R1) as CO. pose proof (iv_price _ (reachable_inv _ R1)) as PB1.
  pose proof (C65_fair_execution _ _ _ R1 H1) as FX. cbv zeta in FX. rewrite D1 in FX. destruct FX as (F1 & F2).
  destruct (C11_rounding_favours_pool _ _ _ R2 H2) as (G1 & G2). cbv zeta in G1, G2.
  pose proof (C10_price_direction _ _ _ R1 H1) as DR1. rewrite D1 in DR1.
  pose proof (C10_price_direction _ _ _ R2 H2) as DR2. rewrite D2 in DR2. cbn [price_moves] in DR1, DR2.
  destruct (price_after _ _ _ R1 H1) as (_ & BG). specialize (BG D1).
  rewrite EC in G1, G2. set (c := w_config w1) in *.
  set (p1 := p_price (w_pool w1)) in *. set (q1 := p_price (w_pool w1')) in *.
  set (p2 := p_price (w_pool w2)) in *. set (q2 := p_price (w_pool w2')) in *.
  fold (exact_base c p2) (exact_base c q2) in G2.
  set (e1 := if sa_mode a1 =? 2 then q1 - 1 else q1) in *.
  pose proof (quote_step c (q1 - 1) CO) as QS. replace (q1 - 1 + 1) with q1 in QS by lia.
  assert (KE : (inject_Z (Z.of_nat (length (curve_points c)) + 2) == inject_Z k - 1)%Q).
  { unfold k. replace (Z.of_nat (length (curve_points c)) + 2) with (Z.of_nat (length (curve_points c)) + 3 + -1) by lia.
    rewrite inject_Z_plus. reflexivity. }
  assert (K3 : 3 <= k) by (unfold k; lia). rewrite KE in F1, F2. clear KE. clearbody k.
  assert (KQ : (3 <= inject_Z k)%Q) by (change 3%Q with (inject_Z 3); rewrite <- Zle_Qle; exact K3).
  (* the quote of the second, in exact terms *)
  assert (Q2 : (exact_quote c q2 - exact_quote c p2 <= inject_Z (p_quote (w_pool w2') - p_quote (w_pool w2)))%Q).
  { rewrite Zle_Qle, inject_Z_mult in G1. rewrite <- exact_scaled in G1.
    rewrite (Qmult_comm (inject_Z (2 ^ 128))) in G1. apply Qmult_le_r in G1; [exact G1|reflexivity]. }
  assert (O1 : (0 <= inject_Z out1)%Q) by (change 0%Q with (inject_Z 0); rewrite <- Zle_Qle; unfold out1; lia).
  fold out1 in F2.
  assert (O2 : (inject_Z out2 <= exact_base c q2 - exact_base c p2)%Q).
  { assert (Y : (inject_Z (p_base (w_pool w2') - p_base (w_pool w2)) == - inject_Z out2)%Q)
      by (rewrite <- inject_Z_opp; apply inject_Z_injective; unfold out2; lia). rewrite Y in G2. lra. }
  assert (QQ' : (inject_Z (p_quote (w_pool w2') - p_quote (w_pool w2)) <= inject_Z (p_quote (w_pool w1') - p_quote (w_pool w1)))%Q)
    by (rewrite <- Zle_Qle; exact QQ).
  assert (FIN : forall e, p1 <= e ->
     (exact_quote c q2 - exact_quote c p2 <= exact_quote c e - exact_quote c p1 + inject_Z k)%Q ->
     (exact_base c e - exact_base c p1 - inject_Z k <= inject_Z out1)%Q ->
     costs_at_least p2 (out2 - out1 - k) k).
  { intros e LE HQ HB.
    pose proof (buy_places c p1 e p2 q2 (inject_Z k) CO ltac:(lia) LE PP DR2 ltac:(lra) HQ) as BP.
    unfold costs_at_least. rewrite Zle_Qle, !inject_Z_mult. rewrite (Qmult_comm (inject_Z k)).
    eapply Qle_trans; [|exact BP]. apply q_scale; [|apply sq_nonneg].
    unfold Z.sub. rewrite !inject_Z_plus, !inject_Z_opp. lra. }
  destruct (Z_le_gt_dec p1 e1) as [L|L].
  - apply (FIN e1 L); [|lra].
    assert (QE : (exact_quote c q1 <= exact_quote c e1 + 1)%Q) by (unfold e1; destruct (sa_mode a1 =? 2); lra). lra.
  - assert (E : q1 = p1) by (unfold e1 in L; destruct (sa_mode a1 =? 2); lia). rewrite E in F1.
    apply (FIN p1); [lia|lra|lra].
Qed.

(** Two sales, in any modes, the first at a price at most as high. If no more base reaches the reserve in the
    first than in the second, then it takes no more quote out, up to [k] units of quote and the price of [k] units of base. *)
Theorem C92_higher_sells_dearer : forall w1 a1 w1' w2 a2 w2',
  reachable w1 -> reachable w2 -> w_config w2 = w_config w1 ->
  sa_dir a1 = BaseToQuote -> sa_dir a2 = BaseToQuote ->
  exec w1 (OSwap a1) = Ok w1' -> exec w2 (OSwap a2) = Ok w2' ->
  p_price (w_pool w1) <= p_price (w_pool w2) ->
  p_base (w_pool w1') - p_base (w_pool w1) <= p_base (w_pool w2') - p_base (w_pool w2) ->
  let k := Z.of_nat (length (curve_points (w_config w1))) + 3 in
  let out1 := p_quote (w_pool w1) - p_quote (w_pool w1') in
  let out2 := p_quote (w_pool w2) - p_quote (w_pool w2') in
  costs_at_most (p_price (w_pool w1)) k (out1 - out2 - k).
Proof.
  intros w1 a1 w1' w2 a2 w2' R1 R2 EC D1 D2 H1 H2 PP BB k out1 out2.
  pose proof (curve_ok_of _ R1) as CO.
  pose proof (C65_fair_execution _ _ _ R2 H2) as FX. cbv zeta in FX. rewrite D2 in FX. destruct FX as (F1 & F2).
  destruct (C11_rounding_favours_pool _ _ _ R1 H1) as (G1 & G2). cbv zeta in G1, G2.
  pose proof (C10_price_direction _ _ _ R1 H1) as DR1. rewrite D1 in DR1.
  pose proof (C10_price_direction _ _ _ R2 H2) as DR2. rewrite D2 in DR2. cbn [price_moves] in DR1, DR2.
  destruct (price_after _ _ _ R1 H1) as (PA1 & _). destruct (price_after _ _ _ R2 H2) as (PA2 & _).
  rewrite EC in F1, F2, PA2. set (c := w_config w1) in *.
  set (p1 := p_price (w_pool w1)) in *. set (q1 := p_price (w_pool w1')) in *.
  set (p2 := p_price (w_pool w2)) in *. set (q2 := p_price (w_pool w2')) in *.
  fold (exact_base c p1) (exact_base c q1) in G2.
  assert (KE : (inject_Z (Z.of_nat (length (curve_points c)) + 2) == inject_Z k - 1)%Q).
  { unfold k. replace (Z.of_nat (length (curve_points c)) + 2) with (Z.of_nat (length (curve_points c)) + 3 + -1) by lia.
    rewrite inject_Z_plus. reflexivity. }
  assert (K3 : 3 <= k) by (unfold k; lia). rewrite KE in F1, F2. clear KE. clearbody k.
  assert (KQ : (3 <= inject_Z k)%Q) by (change 3%Q with (inject_Z 3); rewrite <- Zle_Qle; exact K3).
  fold out2 in F1.
  assert (O1 : (inject_Z out1 <= exact_quote c p1 - exact_quote c q1)%Q).
  { rewrite Zle_Qle, inject_Z_mult in G1. rewrite <- exact_scaled in G1.
    rewrite (Qmult_comm (inject_Z (2 ^ 128))) in G1. apply Qmult_le_r in G1; [|reflexivity].
    assert (Y : (inject_Z (p_quote (w_pool w1') - p_quote (w_pool w1)) == - inject_Z out1)%Q)
      by (rewrite <- inject_Z_opp; apply inject_Z_injective; unfold out1; lia). rewrite Y in G1. lra. }
  assert (BB' : (inject_Z (p_base (w_pool w1') - p_base (w_pool w1)) <= inject_Z (p_base (w_pool w2') - p_base (w_pool w2)))%Q)
    by (rewrite <- Zle_Qle; exact BB).
  assert (KS : (0 <= inject_Z k * inject_Z (p1 ^ 2))%Q) by (apply Qmult_le_0_compat; [lra|apply sq_nonneg]).
  assert (T : (0 <= inject_Z (2 ^ 128))%Q) by (vm_compute; discriminate).
  unfold costs_at_most. rewrite Zle_Qle, !inject_Z_mult.
  unfold Z.sub. rewrite !inject_Z_plus, !inject_Z_opp.
  destruct (q2 =? c_start c) eqn:QE.
  - (* the second sells down to the start of the curve *)
    assert (E : q2 = c_start c) by lia.
    destruct (exact_between c q2 q1 CO ltac:(lia)) as (_ & _ & _ & B1).
    destruct (exact_between c p1 p2 CO ltac:(lia)) as (_ & _ & _ & B2).
    eapply Qle_trans; [|exact KS]. rewrite <- (Qmult_0_l (inject_Z (2 ^ 128))). apply q_scale; [lra|exact T].
  - set (e2 := if sa_mode a2 =? 2 then q2 else q2 - 1) in *.
    pose proof (quote_step c (q2 - 1) CO) as QS. replace (q2 - 1 + 1) with q2 in QS by lia.
    assert (QX : (exact_quote c q2 <= exact_quote c e2 + 1)%Q) by (unfold e2; destruct (sa_mode a2 =? 2); lra).
    assert (E2 : c_start c <= e2 <= p2) by (unfold e2; destruct (sa_mode a2 =? 2); lia).
    pose proof (sell_places c p1 q1 p2 e2 (inject_Z k) CO ltac:(lia) DR1 PP ltac:(lia) ltac:(lia) ltac:(lra) ltac:(lra)) as SP.
    eapply Qle_trans; [|exact SP]. rewrite (Qmult_comm (inject_Z (2 ^ 128))). apply q_scale; [lra|exact T].
Qed.

(** ** The hypotheses can be met *)
Definition early : world := run wF [].
Definition late : world := run wF [OSwap (req QuoteToBase 0 30000000000 0 1700000000)].

(** The same payment thirty billion units of quote later buys a good deal less. *)
Example C92_case_buy : exists w1' w2', let a := req QuoteToBase 0 20000000000 0 1700000010 in
  reachable early /\ reachable late /\ w_config late = w_config early
  /\ exec early (OSwap a) = Ok w1' /\ exec late (OSwap a) = Ok w2'
  /\ p_price (w_pool early) < p_price (w_pool late)
  /\ p_quote (w_pool w2') - p_quote (w_pool late) <= p_quote (w_pool w1') - p_quote (w_pool early)
  /\ 0 < p_base (w_pool late) - p_base (w_pool w2') < p_base (w_pool early) - p_base (w_pool w1').
Proof.
  eexists _, _. cbv zeta. split; [exact (reachF [])|].
  split; [exact (reachF [OSwap (req QuoteToBase 0 30000000000 0 1700000000)])|]. split; [vm_compute; reflexivity|].
  split; [vm_compute; reflexivity|]. split; [vm_compute; reflexivity|]. split; [vm_compute; reflexivity|].
  split; [vm_compute; congruence|]. split; vm_compute; reflexivity.
Qed.

Definition later_still : world :=
  run wF [OSwap (req QuoteToBase 0 30000000000 0 1700000000); OSwap (req QuoteToBase 0 30000000000 0 1700000020)].

Example C92_case_sell : exists w1' w2', let a := req BaseToQuote 0 1000000 0 1700000030 in
  reachable late /\ reachable later_still /\ w_config later_still = w_config late
  /\ exec late (OSwap a) = Ok w1' /\ exec later_still (OSwap a) = Ok w2'
  /\ p_price (w_pool late) < p_price (w_pool later_still)
  /\ p_base (w_pool w1') - p_base (w_pool late) <= p_base (w_pool w2') - p_base (w_pool later_still)
  /\ 0 < p_quote (w_pool late) - p_quote (w_pool w1') < p_quote (w_pool later_still) - p_quote (w_pool w2').
Proof.
  eexists _, _. cbv zeta. split; [exact (reachF [OSwap (req QuoteToBase 0 30000000000 0 1700000000)])|].
  split; [exact (reachF [OSwap (req QuoteToBase 0 30000000000 0 1700000000); OSwap (req QuoteToBase 0 30000000000 0 1700000020)])|].
  split; [vm_compute; reflexivity|].
  split; [vm_compute; reflexivity|]. split; [vm_compute; reflexivity|]. split; [vm_compute; reflexivity|].
  split; [vm_compute; congruence|]. split; vm_compute; reflexivity.
Qed.

Print Assumptions C92_first_buys_cheaper.
Print Assumptions C92_higher_sells_dearer.
