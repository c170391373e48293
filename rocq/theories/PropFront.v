(** * C95: trading around somebody else's trade takes from nobody but them, and no more than they miss. *)
From Coq Require Import ZArith QArith Qround List Bool Lia ZifyBool Lqa.
From Verif Require Import Base MathModel CurveModel FeeModel ConfigModel PoolModel TxModel
  SystemModel Fixtures Spec Lib CurveProofs CurveLoops Potential CalcProofs ConfigProofs FeeProofs
  SwapProofs InvProofs InvOps InvReach FixturesReach Frame PropSwap PropLife Steps Walks PropTrade PropFair PropSpot PropLarger
  PropFirst PropRound.
Import ListNotations.
Open Scope Z_scope.
#[local] Arguments Z.pow : simpl never.
#[local] Arguments Z.testbit : simpl never.

(** ** Specification *)

(** What the two reserves of a pool are worth at the price with square root [p], in units of quote times [2^128]. *)
Definition worth (p : Z) (w : world) : Z := p_quote (w_pool w) * 2 ^ 128 + p_base (w_pool w) * p ^ 2.

(** What others take out of the two reserves before ([w] to [w1]) and after ([w2] to [w3]) a trade. *)
Definition others_quote (w w1 w2 w3 : world) : Z :=
  (p_quote (w_pool w) - p_quote (w_pool w1)) + (p_quote (w_pool w2) - p_quote (w_pool w3)).
Definition others_base (w w1 w2 w3 : world) : Z :=
  (p_base (w_pool w) - p_base (w_pool w1)) + (p_base (w_pool w2) - p_base (w_pool w3)).

(** ** Where a single trade ends *)
Lemma small_step s x : (s * inject_Z ((x - 1) ^ 2) <= inject_Z (2 ^ 128))%Q -> 4 <= x ->
  (s * inject_Z (x ^ 2) <= 2 * inject_Z (2 ^ 128))%Q.
Proof.
  intros H X. assert (T : (0 <= inject_Z (2 ^ 128))%Q) by (vm_compute; discriminate).
  destruct (Qlt_le_dec s 0) as [N|N].
  - assert (G : (s * inject_Z (x ^ 2) <= 0 * inject_Z (x ^ 2))%Q) by (apply q_scale; [lra|apply sq_nonneg]).
    rewrite Qmult_0_l in G. lra.
  - assert (SQ : (inject_Z (x ^ 2) <= inject_Z ((x - 1) ^ 2) * 2)%Q).
    { change 2%Q with (inject_Z 2). rewrite <- inject_Z_mult, <- Zle_Qle. nia. }
    assert (M : (inject_Z (x ^ 2) * s <= inject_Z ((x - 1) ^ 2) * 2 * s)%Q) by (apply q_scale; auto).
    rewrite (Qmult_comm s) in *.
    assert (EX : (inject_Z ((x - 1) ^ 2) * 2 * s == 2 * (inject_Z ((x - 1) ^ 2) * s))%Q) by ring. rewrite EX in M. lra.
Qed.

Lemma trade_end w a ws : reachable w -> exec w (OSwap a) = Ok ws ->
  let c := w_config w in let p0 := p_price (w_pool w) in let p := p_price (w_pool ws) in
  let k := inject_Z (Z.of_nat (length (curve_points c)) + 2) in
  c_start c <= p /\
  exists s : Q, (s * inject_Z (p ^ 2) <= 2 * inject_Z (2 ^ 128))%Q
  /\ (inject_Z (p_quote (w_pool ws) - p_quote (w_pool w)) <= exact_quote c p - exact_quote c p0 + k)%Q
  /\ (exact_base c p - exact_base c p0 <= inject_Z (p_base (w_pool w) - p_base (w_pool ws)) + k + s)%Q.
Proof.
  intros R H c p0 p k. pose proof (curve_ok_of _ R) as CO.
  pose proof (ok_start_min _ (created_cfg_ok _ (iv_created _ (reachable_inv _ R)))) as SMN. fold c in CO, SMN.
  destruct (price_after _ _ _ R H) as (PA & _). fold c p in PA. split; [lia|].
  assert (X4 : 4 <= p) by (unfold MIN_SQRT_PRICE in SMN; lia).
  pose proof (C65_fair_execution _ _ _ R H) as FX. cbv zeta in FX. fold c p0 p k in FX.
  destruct (sa_dir a).
  - destruct FX as (F1 & F2). set (e := if sa_mode a =? 2 then p else p - 1) in *.
    exists (exact_base c p - exact_base c e + (if p =? c_start c then step_below c else 0))%Q. split.
    + apply small_step; [|exact X4]. apply last_step; auto; unfold e; destruct (sa_mode a =? 2); lia.
    + unfold Z.sub in *. rewrite inject_Z_plus, inject_Z_opp in F1, F2 |- *. rewrite inject_Z_plus, inject_Z_opp. split; lra.
  - destruct FX as (F1 & F2). set (e := if sa_mode a =? 2 then p - 1 else p) in *.
    exists (exact_base c p - exact_base c e)%Q. split; [|split; lra].
    destruct (Z_le_gt_dec (c_start c) e) as [C|C].
    + apply small_step; [|exact X4]. destruct (exact_between c e p CO ltac:(unfold e; destruct (sa_mode a =? 2); lia)) as (A & _ & B & _).
      pose proof (quote_step c (p - 1) CO) as QS. replace (p - 1 + 1) with p in QS by lia.
      assert (Q1 : (exact_quote c p - exact_quote c e <= 1)%Q) by (unfold e; destruct (sa_mode a =? 2); lra).
      assert (T : (0 <= inject_Z (2 ^ 128))%Q) by (vm_compute; discriminate).
      set (s := (exact_base c p - exact_base c e)%Q) in *. set (q := (exact_quote c p - exact_quote c e)%Q) in *. clearbody q.
      assert (M : (inject_Z ((p - 1) ^ 2) * s <= inject_Z (e ^ 2) * s)%Q)
        by (apply q_scale; [apply sq_mono; unfold e; destruct (sa_mode a =? 2); lia|exact B]).
      assert (M2 : (q * inject_Z (2 ^ 128) <= 1 * inject_Z (2 ^ 128))%Q) by (apply q_scale; auto).
      rewrite (Qmult_comm s) in *. rewrite (Qmult_comm (inject_Z (2 ^ 128)) q) in A. lra.
    + assert (P : p <= c_start c) by (unfold e in C; destruct (sa_mode a =? 2); lia).
      assert (B0 : (exact_base c p - exact_base c e == 0)%Q).
      { pose proof CO as [S _ _ W _ _ _ _]. unfold exact_base. rewrite !base_area_below by (auto; lia). ring. }
      rewrite B0, Qmult_0_l. vm_compute. discriminate.
Qed.

Lemma around w pre b w2 post : exec (run w pre) (OSwap b) = Ok w2 -> run w (pre ++ OSwap b :: post) = run w2 post.
Proof. intros H. unfold run at 1. rewrite fold_left_app. cbn [fold_left]. fold (run w pre). unfold step at 2. rewrite H. reflexivity. Qed.

(** ** C95 *)

(** Take any trade, alone, from [w] to [ws], and any other history from [w] to [w3]. At the price at which the
    trade ends, the reserves that the history leaves are worth no less than those that the trade leaves, up to [k]
    units of each token; [k] is the number of curve points plus four. *)
Theorem C95_reserves_worth_no_less : forall w a ws ops, reachable w -> exec w (OSwap a) = Ok ws ->
  let p := p_price (w_pool ws) in
  let k := Z.of_nat (length (curve_points (w_config w))) + 4 in
  worth p ws <= worth p (run w ops) + k * (2 ^ 128 + p ^ 2).
Proof.
  intros w a ws ops R H p k. pose proof (curve_ok_of _ R) as CO.
  destruct (trade_end _ _ _ R H) as (SP & s & S & TQ & TB). fold p in SP, S, TQ, TB.
  destruct (run_area ops w R) as (RQ & RB). set (w3 := run w ops) in *.
  pose proof (reachable_inv _ (reachable_run w ops R)) as V3. fold w3 in V3.
  assert (CF : w_config w3 = w_config w) by (apply (run_frame ops w (reachable_inv _ R))).
  pose proof (iv_price _ V3) as P3. rewrite CF in P3.
  set (c := w_config w) in *. set (p0 := p_price (w_pool w)) in *. set (p3 := p_price (w_pool w3)) in *.
  fold (exact_base c p0) (exact_base c p3) in RB.
  rewrite Zle_Qle, <- exact_scaled in RQ.
  assert (KE : (inject_Z (Z.of_nat (length (curve_points c)) + 2) == inject_Z k - 2)%Q).
  { unfold k. fold c. replace (Z.of_nat (length (curve_points c)) + 2) with (Z.of_nat (length (curve_points c)) + 4 + -2) by lia.
    rewrite inject_Z_plus. reflexivity. }
  rewrite KE in TQ, TB. clear KE. clearbody k.
  assert (T : (0 <= inject_Z (2 ^ 128))%Q) by (vm_compute; discriminate).
  pose proof (sq_nonneg p) as PN.
  unfold worth. rewrite Zle_Qle, !inject_Z_plus, !inject_Z_mult, inject_Z_plus.
  unfold Z.sub in RQ, RB, TQ, TB. rewrite inject_Z_mult, inject_Z_plus, inject_Z_opp in RQ.
  rewrite inject_Z_plus, inject_Z_opp in RB, TQ, TB.
  set (t := inject_Z (2 ^ 128)) in *. set (pp := inject_Z (p ^ 2)) in *.
  set (q0 := inject_Z (p_quote (w_pool w))) in *. set (qs := inject_Z (p_quote (w_pool ws))) in *.
  set (q3 := inject_Z (p_quote (w_pool w3))) in *. set (b0 := inject_Z (p_base (w_pool w))) in *.
  set (bs := inject_Z (p_base (w_pool ws))) in *. set (b3 := inject_Z (p_base (w_pool w3))) in *. set (kk := inject_Z k) in *.
  (* the line through the end of the trade supports the curve *)
  assert (LINE : (t * (exact_quote c p - exact_quote c p3) <= (exact_base c p - exact_base c p3) * pp)%Q).
  { destruct (Z_le_gt_dec p3 p) as [C|C].
    - destruct (exact_between c p3 p CO ltac:(lia)) as (_ & A & _). exact A.
    - destruct (exact_between c p p3 CO ltac:(lia)) as (A & _). fold t pp in A.
      assert (E1 : (t * (exact_quote c p - exact_quote c p3) == - (t * (exact_quote c p3 - exact_quote c p)))%Q) by ring.
      assert (E2 : ((exact_base c p - exact_base c p3) * pp == - ((exact_base c p3 - exact_base c p) * pp))%Q) by ring.
      rewrite E1, E2. lra. }
  assert (G1 : ((qs + - q0) * t <= (exact_quote c p - exact_quote c p0 + (kk - 2)) * t)%Q) by (apply q_scale; auto).
  assert (G2 : ((exact_base c p - exact_base c p3) * pp <= (b3 - bs + (kk - 2) + s) * pp)%Q) by (apply q_scale; [lra|exact PN]).
  set (Qp := exact_quote c p) in *. set (Qp0 := exact_quote c p0) in *. set (Qp3 := exact_quote c p3) in *.
  clearbody Qp Qp0 Qp3. clear -S RQ LINE G1 G2 PN T.
  assert (E1 : ((qs + - q0) * t == qs * t - q0 * t)%Q) by ring. rewrite E1 in G1.
  assert (E2 : ((Qp - Qp0 + (kk - 2)) * t == t * (Qp - Qp3) + t * (Qp3 - Qp0) + kk * t - 2 * t)%Q) by ring. rewrite E2 in G1.
  assert (E3 : ((q3 + - q0) * t == q3 * t - q0 * t)%Q) by ring. rewrite E3 in RQ.
  assert (E4 : ((b3 - bs + (kk - 2) + s) * pp == b3 * pp - bs * pp + kk * pp - 2 * pp + s * pp)%Q) by ring. rewrite E4 in G2.
  assert (E5 : (kk * (t + pp) == kk * t + kk * pp)%Q) by ring. rewrite E5. lra.
Qed.

(** Somebody could buy in [w], which would lead to [ws]; others trade first ([pre]), then the purchase is made, then
    others trade again ([post]). If the purchase brings no more quote to the reserve than it would have alone and the others
    together end with no less base, then the others gain no more quote than the base that the buyer misses is worth at the
    price they would have reached alone, up to [k] units of each token. *)
Theorem C95_around_a_purchase : forall w a ws pre b w2 post, reachable w ->
  exec w (OSwap a) = Ok ws -> exec (run w pre) (OSwap b) = Ok w2 ->
  let w1 := run w pre in let w3 := run w2 post in
  p_quote (w_pool w2) - p_quote (w_pool w1) <= p_quote (w_pool ws) - p_quote (w_pool w) ->
  0 <= others_base w w1 w2 w3 ->
  let missed := (p_base (w_pool w) - p_base (w_pool ws)) - (p_base (w_pool w1) - p_base (w_pool w2)) in
  let k := Z.of_nat (length (curve_points (w_config w))) + 4 in
  costs_at_most (p_price (w_pool ws)) (missed + k) (others_quote w w1 w2 w3 - k).
Proof.
  intros w a ws pre b w2 post R H H2 w1 w3 N O missed k.
  pose proof (C95_reserves_worth_no_less w a ws (pre ++ OSwap b :: post) R H) as W. cbv zeta in W. fold k in W.
  rewrite (around w pre b w2 post H2) in W. fold w3 in W. unfold worth, costs_at_most, others_quote, others_base in *. unfold missed. clearbody k w1 w3.
  set (s := p_price (w_pool ws) ^ 2) in *. assert (S : 0 <= s) by (unfold s; nia). clearbody s. set (t := 2 ^ 128) in *.
  assert (T : 0 <= t) by (unfold t; lia). clearbody t. nia.
Qed.

(** The same around a sale: if it brings no more base to the reserve than it would have alone, the others gain no more quote
    than the seller misses. *)
Theorem C95_around_a_sale : forall w a ws pre b w2 post, reachable w ->
  exec w (OSwap a) = Ok ws -> exec (run w pre) (OSwap b) = Ok w2 ->
  let w1 := run w pre in let w3 := run w2 post in
  p_base (w_pool w2) - p_base (w_pool w1) <= p_base (w_pool ws) - p_base (w_pool w) ->
  0 <= others_base w w1 w2 w3 ->
  let missed := (p_quote (w_pool w) - p_quote (w_pool ws)) - (p_quote (w_pool w1) - p_quote (w_pool w2)) in
  let k := Z.of_nat (length (curve_points (w_config w))) + 4 in
  costs_at_most (p_price (w_pool ws)) k (others_quote w w1 w2 w3 - missed - k).
Proof.
  intros w a ws pre b w2 post R H H2 w1 w3 N O missed k.
  pose proof (C95_reserves_worth_no_less w a ws (pre ++ OSwap b :: post) R H) as W. cbv zeta in W. fold k in W.
  rewrite (around w pre b w2 post H2) in W. fold w3 in W. unfold worth, costs_at_most, others_quote, others_base in *. unfold missed. clearbody k w1 w3.
  set (s := p_price (w_pool ws) ^ 2) in *. assert (S : 0 <= s) by (unfold s; nia). clearbody s. set (t := 2 ^ 128) in *.
  assert (T : 0 <= t) by (unfold t; lia). clearbody t. nia.
Qed.

(** The minimum that the trader asks for leaves the reserve. *)
Lemma minimum_leaves w a w' : reachable w -> exec w (OSwap a) = Ok w' -> sa_mode a = 0 \/ sa_mode a = 1 ->
  match sa_dir a with
  | QuoteToBase => sa_amount1 a <= p_base (w_pool w) - p_base (w_pool w')
  | BaseToQuote => sa_amount1 a <= p_quote (w_pool w) - p_quote (w_pool w')
  end.
Proof.
  intros R H M. destruct (reach_swap _ _ _ R H) as (K & F & HA & _ & r & fm & num & fee & gross
    & pf & cf & cur & p1 & E & PRE & PS).
  destruct (effect_applied _ _ _ _ _ _ _ _ _ _ _ E) as (p2 & AP & SM). destruct SM as (SP & SB & SQ & _).
  pose proof (se_facts _ _ _ _ _ _ _ _ _ _ _ E) as SF.
  pose proof (sf_out _ _ _ _ _ _ _ _ SF) as SO. pose proof (sf_fee_nonneg _ _ _ _ _ _ _ _ SF) as FN.
  assert (L : sa_amount1 a <= sr_output r).
  { unfold process_swap in PS. destruct M as [M|M]; rewrite M in PS; simpl in PS;
    apply bind_ok in PS; destruct PS as (r' & S & PS); apply bind_ok in PS; destruct PS as (u & L & PS);
    apply Ok_inj in PS; subst r'; apply require_ok in L; lia. }
  rewrite SB, SQ, (ap_quote _ _ _ _ _ _ _ _ _ AP), (ap_base _ _ _ _ _ _ _ _ _ AP).
  destruct (sa_dir a); cbn [fi_dq fi_db]; destruct (fm_on_input fm); lia.
Qed.

(** So the minimum limits the damage: the others gain no more than what lies between the result of the trade alone and the
    minimum. *)
Theorem C95_minimum_limits_the_damage : forall w a ws pre b w2 post, reachable w ->
  exec w (OSwap a) = Ok ws -> exec (run w pre) (OSwap b) = Ok w2 -> sa_mode b = 0 \/ sa_mode b = 1 ->
  let w1 := run w pre in let w3 := run w2 post in
  0 <= others_base w w1 w2 w3 ->
  let k := Z.of_nat (length (curve_points (w_config w))) + 4 in
  match sa_dir b with
  | QuoteToBase => p_quote (w_pool w2) - p_quote (w_pool w1) <= p_quote (w_pool ws) - p_quote (w_pool w) ->
      costs_at_most (p_price (w_pool ws)) (p_base (w_pool w) - p_base (w_pool ws) - sa_amount1 b + k)
        (others_quote w w1 w2 w3 - k)
  | BaseToQuote => p_base (w_pool w2) - p_base (w_pool w1) <= p_base (w_pool ws) - p_base (w_pool w) ->
      costs_at_most (p_price (w_pool ws)) k
        (others_quote w w1 w2 w3 - (p_quote (w_pool w) - p_quote (w_pool ws) - sa_amount1 b) - k)
  end.
Proof.
  intros w a ws pre b w2 post R H H2 M w1 w3 O k.
  pose proof (minimum_leaves _ _ _ (reachable_run w pre R) H2 M) as L. fold w1 in L.
  pose proof (C95_around_a_purchase w a ws pre b w2 post R H H2) as P.
  pose proof (C95_around_a_sale w a ws pre b w2 post R H H2) as S. cbv zeta in P, S. fold w1 w3 k in P, S.
  destruct (sa_dir b); intros N.
  - specialize (S N O). unfold costs_at_most in *. clear P. clearbody k w1 w3.
    set (s := p_price (w_pool ws) ^ 2) in *. clearbody s. set (t := 2 ^ 128) in *.
    assert (T : 0 <= t) by (unfold t; lia). clearbody t. nia.
  - specialize (P N O). unfold costs_at_most in *. clear S. clearbody k w1 w3.
    set (s := p_price (w_pool ws) ^ 2) in *. assert (S : 0 <= s) by (unfold s; nia). clearbody s. nia.
Qed.

(** Somebody buys 20 SOL worth just before a purchase of 30 SOL, and sells all of it just after. The reserve pays them 2.83 SOL
    more than they brought (before two fees of 0.2 and 0.23 SOL). The buyer misses 154023698 units, worth 2.84 SOL. *)
Definition fr_pre : list op := [OSwap (req QuoteToBase 0 20000000000 0 1700000000)].
Definition fr_post : list op := [OSwap (req BaseToQuote 0 1179132920 0 1700000002)].
Definition fr_buy : swap_args := req QuoteToBase 0 30000000000 1500000000 1700000001.
Example C95_case_purchase : exists ws w2,
  reachable wF /\ exec wF (OSwap fr_buy) = Ok ws /\ exec (run wF fr_pre) (OSwap fr_buy) = Ok w2
  /\ p_quote (w_pool w2) - p_quote (w_pool (run wF fr_pre)) = p_quote (w_pool ws) - p_quote (w_pool wF)
  /\ others_base wF (run wF fr_pre) w2 (run w2 fr_post) = 0
  /\ others_quote wF (run wF fr_pre) w2 (run w2 fr_post) = 2825227270
  /\ (p_base (w_pool wF) - p_base (w_pool ws)) - (p_base (w_pool (run wF fr_pre)) - p_base (w_pool w2)) = 154023698
  /\ 154023698 * p_price (w_pool ws) ^ 2 / 2 ^ 128 = 2843925750.
Proof.
  eexists _, _. split; [exact (reachF [])|]. split; [vm_compute; reflexivity|]. split; [vm_compute; reflexivity|].
  split; [vm_compute; reflexivity|]. split; [vm_compute; reflexivity|]. split; [vm_compute; reflexivity|].
  split; vm_compute; reflexivity.
Qed.

(** Somebody sells before a sale and buys back as much after: they gain exactly what the seller misses. *)
Definition fr_sell : swap_args := req BaseToQuote 0 500000000 0 1700000002.
Definition fr_at : list op := [OSwap (req QuoteToBase 0 30000000000 0 1700000000)].
Definition fr_pre' : list op := [OSwap (req BaseToQuote 0 300000000 0 1700000001)].
Definition fr_post' : list op := [OSwap (req QuoteToBase 2 300000000 10000000000 1700000003)].
Example C95_case_sale : exists ws w2, let w := run wF fr_at in
  reachable w /\ exec w (OSwap fr_sell) = Ok ws /\ exec (run w fr_pre') (OSwap fr_sell) = Ok w2
  /\ p_base (w_pool w2) - p_base (w_pool (run w fr_pre')) = p_base (w_pool ws) - p_base (w_pool w)
  /\ others_base w (run w fr_pre') w2 (run w2 fr_post') = 0
  /\ others_quote w (run w fr_pre') w2 (run w2 fr_post') = 226227503
  /\ (p_quote (w_pool w) - p_quote (w_pool ws)) - (p_quote (w_pool (run w fr_pre')) - p_quote (w_pool w2)) = 226227503.
Proof.
  eexists _, _. cbv zeta. split; [exact (reachF fr_at)|]. split; [vm_compute; reflexivity|]. split; [vm_compute; reflexivity|].
  split; [vm_compute; reflexivity|]. split; [vm_compute; reflexivity|]. split; vm_compute; reflexivity.
Qed.

Print Assumptions C95_reserves_worth_no_less.
Print Assumptions C95_around_a_purchase.
Print Assumptions C95_around_a_sale.
Print Assumptions C95_minimum_limits_the_damage.
