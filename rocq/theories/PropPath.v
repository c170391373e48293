(** * C102: the way does not matter. Pools of one config at the same price hold the same quote tokens, up to
    rounding, whatever trades brought them there; more quote tokens mean a higher price; and no pool has sold
    more base tokens than the curve holds up to its price. *)
From Coq Require Import ZArith QArith List Bool Lia ZifyBool Lqa.
From Verif Require Import Base MathModel CurveModel FeeModel ConfigModel PoolModel TxModel
  SystemModel Fixtures Spec Lib CurveProofs CurveLoops Potential CalcProofs ConfigProofs FeeProofs
  SwapProofs InvProofs InvOps InvReach FixturesReach Effects Frame PropSwap Steps Walks PropTrade PropFair PropDrift.
Import ListNotations.
Open Scope Z_scope.
#[local] Arguments Z.pow : simpl never.

(** ** Proofs *)
Lemma same_history_facts w0 ops : initial w0 ->
  let w := run w0 ops in let c := w_config w0 in
  curve_ok c (curve_points c) /\ 0 <= trades w0 ops * dust c
  /\ (exact_quote c (p_price (w_pool w)) <= inject_Z (p_quote (w_pool w)))%Q
  /\ (inject_Z (p_quote (w_pool w) - trades w0 ops * dust c) <= exact_quote c (p_price (w_pool w)))%Q.
Proof.
  intros I w c. destruct (C77_reserve_tracks_curve w0 ops I) as (A & B). fold w c in A, B.
  split; [exact (ok_curve _ (created_cfg_ok _ (iv_created _ (initial_inv _ I))))|].
  split; [apply Z.mul_nonneg_nonneg; [apply trades_nonneg|unfold dust; lia]|].
  split; [exact A|]. unfold Z.sub. rewrite inject_Z_plus, inject_Z_opp. lra.
Qed.

Lemma qz_le a b x y : (inject_Z a <= x)%Q -> (x <= y)%Q -> (y <= inject_Z b)%Q -> a <= b.
Proof. intros. rewrite Zle_Qle. lra. Qed.

(** ** Theorems *)

(** Two pools of one config, opened and traded by anyone at any time, or one pool at two times. *)
Theorem C102_same_price_same_reserve : forall w1 w2 ops1 ops2, initial w1 -> initial w2 ->
  w_config w2 = w_config w1 ->
  p_price (w_pool (run w1 ops1)) = p_price (w_pool (run w2 ops2)) ->
  Z.abs (p_quote (w_pool (run w1 ops1)) - p_quote (w_pool (run w2 ops2)))
    <= Z.max (trades w1 ops1) (trades w2 ops2) * dust (w_config w1).
Proof.
  intros w1 w2 ops1 ops2 I1 I2 C P.
  destruct (same_history_facts w1 ops1 I1) as (_ & N1 & A1 & B1). destruct (same_history_facts w2 ops2 I2) as (_ & N2 & A2 & B2).
  rewrite C in *. rewrite P in A1, B1.
  pose proof (qz_le _ _ _ _ B1 (Qle_refl _) A2). pose proof (qz_le _ _ _ _ B2 (Qle_refl _) A1).
  assert (D : 0 <= dust (w_config w1)) by (unfold dust; lia).
  rewrite <- Z.mul_max_distr_nonneg_r by exact D. lia.
Qed.

(** The pool with the higher price has at least as many quote tokens, up to its rounding. *)
Theorem C102_higher_price_more_reserve : forall w1 w2 ops1 ops2, initial w1 -> initial w2 ->
  w_config w2 = w_config w1 ->
  p_price (w_pool (run w1 ops1)) <= p_price (w_pool (run w2 ops2)) ->
  p_quote (w_pool (run w1 ops1)) <= p_quote (w_pool (run w2 ops2)) + trades w1 ops1 * dust (w_config w1).
Proof.
  intros w1 w2 ops1 ops2 I1 I2 C P.
  destruct (same_history_facts w1 ops1 I1) as (K & N1 & A1 & B1). destruct (same_history_facts w2 ops2 I2) as (_ & N2 & A2 & B2).
  rewrite C in *. pose proof (qz_le _ _ _ _ B1 (quote_rises _ K _ _ P) A2). lia.
Qed.

(** The pool that is clearly ahead in quote tokens has the higher price: a progress bar drawn from the reserve
    does not mislead about the price. *)
Theorem C102_more_reserve_higher_price : forall w1 w2 ops1 ops2, initial w1 -> initial w2 ->
  w_config w2 = w_config w1 ->
  p_quote (w_pool (run w1 ops1)) + trades w2 ops2 * dust (w_config w1) < p_quote (w_pool (run w2 ops2)) ->
  p_price (w_pool (run w1 ops1)) < p_price (w_pool (run w2 ops2)).
Proof.
  intros w1 w2 ops1 ops2 I1 I2 C Q. apply Z.nle_gt. intro P.
  pose proof (C102_higher_price_more_reserve w2 w1 ops2 ops1 I2 I1 (eq_sym C) P) as G. rewrite C in G. lia.
Qed.

Lemma sold ops : forall w, reachable w ->
  (inject_Z (p_base (w_pool w) - p_base (w_pool (run w ops)))
   <= exact_base (w_config w) (p_price (w_pool (run w ops))) - exact_base (w_config w) (p_price (w_pool w)))%Q.
Proof.
  induction ops as [|o rest IH]; intros w R.
  - change (run w []) with w. rewrite Z.sub_diag. change (inject_Z 0) with 0%Q. lra.
  - change (run w (o :: rest)) with (run (step w o) rest).
    destruct (exec w o) as [w1|e] eqn:E.
    + assert (S : step w o = w1) by (unfold step; rewrite E; reflexivity). rewrite S.
      pose proof (reachable_exec _ _ _ R E) as R1. specialize (IH w1 R1).
      destruct (exec_frame _ _ _ (reachable_inv _ R) E) as (F & M).
      assert (C : w_config w1 = w_config w) by apply F. rewrite C in IH.
      set (w2 := run w1 rest) in *. clearbody w2.
      destruct o;
      try (pose proof (sk_price _ _ M) as MP; pose proof (sk_base _ _ M) as MB; rewrite MP, MB in IH; exact IH).
      destruct (C11_rounding_favours_pool _ _ _ R E) as (_ & B). cbv zeta in B.
      fold (exact_base (w_config w) (p_price (w_pool w))) (exact_base (w_config w) (p_price (w_pool w1))) in B.
      replace (p_base (w_pool w) - p_base (w_pool w2)) with
        ((p_base (w_pool w1) - p_base (w_pool w2)) + - (p_base (w_pool w1) - p_base (w_pool w))) by lia.
      rewrite inject_Z_plus, inject_Z_opp. lra.
    + assert (S : step w o = w) by (unfold step; rewrite E; reflexivity). rewrite S. apply IH, R.
Qed.

(** The base tokens a pool has sold, in all its trades together, are at most what the curve holds between the
    start and the price it is at: every token sold and not sold back has moved the price. *)
Theorem C102_sold_at_most_the_curve : forall w0 ops, initial w0 ->
  (inject_Z (p_base (w_pool w0) - p_base (w_pool (run w0 ops)))
   <= exact_base (w_config w0) (p_price (w_pool (run w0 ops))))%Q.
Proof.
  intros w0 ops I. pose proof (sold ops w0 (ex_intro _ w0 (ex_intro _ [] (conj I eq_refl)))) as S.
  destruct (initial_market _ I) as (_ & P0). rewrite P0 in S.
  pose proof (ok_curve _ (created_cfg_ok _ (iv_created _ (initial_inv _ I)))) as K.
  assert (Z0 : (exact_base (w_config w0) (c_start (w_config w0)) == 0)%Q).
  { unfold exact_base. apply base_area_below; [exact (co_wf _ _ K)|lia]. }
  lra.
Qed.

(** So when everybody has sold back, and the price is where it started, the pool has all its base tokens again. *)
Theorem C102_all_sold_back : forall w0 ops, initial w0 ->
  p_price (w_pool (run w0 ops)) = c_start (w_config w0) ->
  p_base (w_pool w0) <= p_base (w_pool (run w0 ops))
  /\ 0 <= p_quote (w_pool (run w0 ops)) <= trades w0 ops * dust (w_config w0).
Proof.
  intros w0 ops I P. pose proof (C102_sold_at_most_the_curve w0 ops I) as S. rewrite P in S.
  pose proof (ok_curve _ (created_cfg_ok _ (iv_created _ (initial_inv _ I)))) as K.
  assert (Z0 : (exact_base (w_config w0) (c_start (w_config w0)) == 0)%Q).
  { unfold exact_base. apply base_area_below; [exact (co_wf _ _ K)|lia]. }
  split.
  - assert (G : p_base (w_pool w0) - p_base (w_pool (run w0 ops)) <= 0).
    { rewrite Zle_Qle. change (inject_Z 0) with 0%Q. lra. }
    lia.
  - destruct (same_history_facts w0 ops I) as (_ & _ & A & B). rewrite P in A, B.
    assert (Y0 : (exact_quote (w_config w0) (c_start (w_config w0)) == 0)%Q).
    { unfold exact_quote. rewrite quote_area_below; [reflexivity|apply (co_wf _ _ K)|lia]. }
    assert (G1 : 0 <= p_quote (w_pool (run w0 ops))) by (rewrite Zle_Qle; change (inject_Z 0) with 0%Q; lra).
    assert (G2 : p_quote (w_pool (run w0 ops)) - trades w0 ops * dust (w_config w0) <= 0).
    { rewrite Zle_Qle. change (inject_Z 0) with 0%Q. lra. }
    lia.
Qed.

(** ** Non-vacuity *)
Definition buy (mode n now : Z) : op := swp 500 None QuoteToBase mode n 0 now plain_view.
Definition sell_all (now : Z) : op := swp 500 None BaseToQuote 1 (2 ^ 63) 0 now plain_view.

(** The same end of the curve, reached by six trades of several traders and by one: one unit apart. *)
Example C102_case : initial wA
  /\ let w1 := run wA (histA1 ++ histA2) in let w2 := run wA [buy 1 (2 ^ 50) 1700000000] in
     p_price (w_pool w1) = p_price (w_pool w2)
     /\ p_quote (w_pool w1) = 100000000001 /\ p_quote (w_pool w2) = 100000000000
     /\ trades wA (histA1 ++ histA2) = 6 /\ trades wA [buy 1 (2 ^ 50) 1700000000] = 1 /\ dust cfgA = 5.
Proof. split; [apply initialA|]. vm_compute. repeat split; reflexivity. Qed.

(** Two purchases against one of the same total, a moment later: less in the reserve, and a lower price. *)
Example C102_case_order :
  let l1 := [buy 0 1000000000 1700000000; buy 0 1000000000 1700000001] in let l2 := [buy 0 2000000000 1700000000] in
  p_quote (w_pool (run wA l1)) = 1899946754 /\ p_quote (w_pool (run wA l2)) = 1900000000
  /\ p_quote (w_pool (run wA l1)) + trades wA l2 * dust (w_config wA) < p_quote (w_pool (run wA l2))
  /\ p_price (w_pool (run wA l1)) = 590151311492764580 /\ p_price (w_pool (run wA l2)) = 590151695170629795.
Proof. vm_compute. repeat split; reflexivity. Qed.

(** Everything bought is sold back: the pool has one unit of base and one of quote more than at the start. *)
Example C102_case_back :
  let w := run wA [buy 0 2000000000 1700000000; sell_all 1700000002] in
  p_price (w_pool w) = c_start (w_config wA) /\ p_base (w_pool w) = p_base (w_pool wA) + 1 /\ p_quote (w_pool w) = 1.
Proof. vm_compute. repeat split; reflexivity. Qed.

Print Assumptions C102_same_price_same_reserve.
Print Assumptions C102_higher_price_more_reserve.
Print Assumptions C102_more_reserve_higher_price.
Print Assumptions C102_sold_at_most_the_curve.
Print Assumptions C102_all_sold_back.
