(** * C106: moving the price costs. Traders who raise the price of a pool charged in quote tokens lose at least a quarter
    of a per cent of the quote tokens the curve asks for the way up, whatever they do before and after. *)
From Coq Require Import ZArith QArith Qround List Bool Lia ZifyBool Lqa.
From Verif Require Import Base MathModel CurveModel FeeModel ConfigModel PoolModel TxModel
  SystemModel Fixtures Spec SpecHist Lib CurveProofs CurveLoops Potential CalcProofs ConfigProofs FeeProofs
  SwapProofs InvProofs InvOps InvReach FixturesReach Effects Frame PropSwap PropFees PropLife PropTrade PropSpot PropCharge PropDust
  PropFair PropFirst PropBulk PropGroup.
Import ListNotations.
Open Scope Z_scope.
#[local] Arguments Z.pow : simpl never.

Lemma total_app f : forall l1 l2 w, total f w (l1 ++ l2) = total f w l1 + total f (run w l1) l2.
Proof.
  induction l1 as [|o r IH]; intros l2 w; cbn [total app]; [unfold run; simpl; lia|].
  rewrite IH. change (run w (o :: r)) with (run (step w o) r). lia.
Qed.

Lemma config_step w o : reachable w -> w_config (step w o) = w_config w.
Proof. intros R. exact (fr_config _ _ (run_frame [o] w (reachable_inv _ R))). Qed.

(** In a pool charged in quote tokens the reserve grows by no more than the volume. *)
Lemma volume_step w o : reachable w -> c_collect_fee_mode (w_config w) = 0 ->
  p_quote (w_pool (step w o)) - p_quote (w_pool w) <= volume TQuote w o.
Proof.
  intros R M. pose proof (balance w o TQuote R (or_intror eq_refl)) as B. cbn [reserve] in B.
  destruct (lowest_exists _ (iv_created _ (reachable_inv _ R))) as (k & K & KB & _).
  destruct (one_op w o TQuote R k K) as (V & F & _).
  assert (F0 : 0 <= fee_gain TQuote w o).
  { assert (0 <= k * volume TQuote w o) by (apply Z.mul_nonneg_nonneg; lia). lia. }
  destruct o; try (unfold trader_gain in B; lia).
  destruct (exec w (OSwap a)) as [w'|e] eqn:H.
  2: { rewrite (step_err _ _ _ H) in *. lia. }
  assert (CH : charged TQuote w (OSwap a) = true).
  { unfold charged. rewrite H. unfold charge_token. rewrite M. reflexivity. }
  unfold trader_gain in B. revert V. unfold volume. rewrite CH. intros V.
  pose proof (swap_observed_num _ _ _ R H) as (paid & got & fee & tr & pr & rf & num & _ & P1 & P2 & _ & _ & _ & LG & _).
  pose proof (moved_ok _ _ _ _ H LG) as MV.
  assert (A1 : amount_at 1 (moved w (OSwap a)) = got) by (rewrite MV; reflexivity).
  destruct (sa_dir a); cbn [token_in token_out same_token] in *; lia.
Qed.

Lemma volume_all : forall ops w, reachable w -> c_collect_fee_mode (w_config w) = 0 ->
  p_quote (w_pool (run w ops)) - p_quote (w_pool w) <= total (volume TQuote) w ops.
Proof.
  induction ops as [|o r IH]; intros w R M; cbn [total]; [unfold run; simpl; lia|].
  change (run w (o :: r)) with (run (step w o) r).
  pose proof (volume_step w o R M). pose proof (IH (step w o) (reach_next w o R)) as X. rewrite config_step in X by exact R.
  specialize (X M). lia.
Qed.

(** Take any history and any moment in it. The traders' gain over the whole history, valued at the price before it, is
    a loss of at least 0.25% of what the curve holds, in quote tokens (times 2^128), between the price before the history
    and the price at that moment. *)
Theorem C106_pumping_costs : forall ops1 ops2 w, reachable w -> c_collect_fee_mode (w_config w) = 0 ->
  let c := w_config w in let p := p_price (w_pool w) in let high := p_price (w_pool (run w ops1)) in
  10000 * value p (total (trader_gain TBase) w (ops1 ++ ops2)) (total (trader_gain TQuote) w (ops1 ++ ops2))
  <= - 25 * (quote_area (c_start c) (curve_points c) high - quote_area (c_start c) (curve_points c) p).
Proof.
  intros ops1 ops2 w R M c p high.
  destruct (C105_trading_costs (ops1 ++ ops2) w R) as (G & _). fold p in G.
  destruct (run_area ops1 w R) as (Q & _). cbv zeta in Q. fold c high p in Q.
  pose proof (volume_all ops1 w R M) as V.
  destruct (C101_fees_are_bounded (ops1 ++ ops2) w TBase R) as (VB & _).
  destruct (C101_fees_are_bounded ops2 (run w ops1) TQuote (reachable_run _ _ R)) as (VQ & _).
  unfold value in *. rewrite (total_app (volume TQuote)) in G.
  assert (PP : 0 <= p ^ 2) by (apply Z.pow_even_nonneg; exists 1; reflexivity).
  assert (T : 0 <= 2 ^ 128) by (vm_compute; discriminate).
  set (s := p ^ 2) in *. set (t := 2 ^ 128) in *. clearbody s t.
  assert (X1 : 0 <= total (volume TBase) w (ops1 ++ ops2) * s) by (apply Z.mul_nonneg_nonneg; assumption).
  assert (X2 : (p_quote (w_pool (run w ops1)) - p_quote (w_pool w)) * t
               <= (total (volume TQuote) w ops1 + total (volume TQuote) (run w ops1) ops2) * t).
  { apply Z.mul_le_mono_nonneg_r; [exact T|lia]. }
  lia.
Qed.

(** The same with the rate the config's schedule ends at. *)
Theorem C106_pumping_costs_own_rate : forall w, reachable w -> c_collect_fee_mode (w_config w) = 0 ->
  let c := w_config w in let p := p_price (w_pool w) in let b := pf_base (c_fees c) in
  exists lowest, scheduled b (bf_first b * bf_second b) lowest /\ 2500000 <= lowest
  /\ forall ops1 ops2, let high := p_price (w_pool (run w ops1)) in
     10 ^ 9 * value p (total (trader_gain TBase) w (ops1 ++ ops2)) (total (trader_gain TQuote) w (ops1 ++ ops2))
     <= - lowest * (quote_area (c_start c) (curve_points c) high - quote_area (c_start c) (curve_points c) p).
Proof.
  intros w R M c p b. destruct (C105_trading_costs_own_rate w R) as (k & SC & K & F). exists k. split; [exact SC|].
  split; [exact K|]. intros ops1 ops2 high. specialize (F (ops1 ++ ops2)). fold p in F.
  destruct (run_area ops1 w R) as (Q & _). cbv zeta in Q. fold c high p in Q.
  pose proof (volume_all ops1 w R M) as V.
  destruct (C101_fees_are_bounded (ops1 ++ ops2) w TBase R) as (VB & _).
  destruct (C101_fees_are_bounded ops2 (run w ops1) TQuote (reachable_run _ _ R)) as (VQ & _).
  eapply Z.le_trans; [exact F|]. rewrite !Z.mul_opp_l. apply -> Z.opp_le_mono. apply Z.mul_le_mono_nonneg_l; [lia|].
  unfold value. rewrite (total_app (volume TQuote)).
  assert (PP : 0 <= p ^ 2) by (apply Z.pow_even_nonneg; exists 1; reflexivity).
  assert (T : 0 <= 2 ^ 128) by (vm_compute; discriminate).
  set (s := p ^ 2) in *. set (t := 2 ^ 128) in *. clearbody s t.
  assert (X1 : 0 <= total (volume TBase) w (ops1 ++ ops2) * s) by (apply Z.mul_nonneg_nonneg; assumption).
  assert (X2 : (p_quote (w_pool (run w ops1)) - p_quote (w_pool w)) * t
               <= (total (volume TQuote) w ops1 + total (volume TQuote) (run w ops1) ops2) * t).
  { apply Z.mul_le_mono_nonneg_r; [exact T|lia]. }
  lia.
Qed.

(** ** Any stretch of a history, in any pool *)
Lemma swing_step w o : reachable w ->
  p_quote (w_pool w) - p_quote (w_pool (step w o)) <= volume TQuote w o
  /\ (c_collect_fee_mode (w_config w) = 1 -> p_base (w_pool w) - p_base (w_pool (step w o)) <= volume TBase w o).
Proof.
  intros R. pose proof (balance w o TQuote R (or_intror eq_refl)) as BQ. pose proof (balance w o TBase R (or_introl eq_refl)) as BB.
  cbn [reserve] in BQ, BB.
  destruct (lowest_exists _ (iv_created _ (reachable_inv _ R))) as (k & K & KB & _).
  destruct (one_op w o TQuote R k K) as (VQ & _). destruct (one_op w o TBase R k K) as (VB & _).
  destruct o; try (unfold trader_gain, fee_gain, charged in BQ, BB; split; [|intros _]; lia).
  destruct (exec w (OSwap a)) as [w'|e] eqn:H.
  2: { rewrite (step_err _ _ _ H) in *. split; [|intros _]; lia. }
  pose proof (brings_nonneg _ _ _ R H) as (B1 & B2). rewrite (step_ok _ _ _ H) in *.
  unfold brings, takes_out in B1, B2.
  destruct (swap_observed_num _ _ _ R H) as (_ & _ & _ & _ & _ & _ & _ & C & _). cbv zeta in C.
  assert (FN : forall t, charged t w (OSwap a) = false -> fee_gain t w (OSwap a) = 0) by (intros t E; unfold fee_gain; rewrite E; reflexivity).
  pose proof (FN TQuote) as FQ. pose proof (FN TBase) as FB. clear FN. unfold trader_gain in BQ, BB. unfold volume in *.
  set (fq := fee_gain TQuote w (OSwap a)) in *. set (fb := fee_gain TBase w (OSwap a)) in *. clearbody fq fb.
  unfold charged, charge_token in *. rewrite H in *. cbn [is_ok andb] in *.
  destruct (sa_dir a); cbn [token_in token_out reserve same_token] in *; destruct C as [C|C]; rewrite C in *; cbn [Z.eqb Pos.eqb same_token] in *;
    (split; [lia|intros M; first [discriminate M|lia]]).
Qed.

Lemma swing_all : forall ops w, reachable w ->
  p_quote (w_pool w) - p_quote (w_pool (run w ops)) <= total (volume TQuote) w ops
  /\ (c_collect_fee_mode (w_config w) = 1 -> p_base (w_pool w) - p_base (w_pool (run w ops)) <= total (volume TBase) w ops).
Proof.
  induction ops as [|o r IH]; intros w R; cbn [total]; [unfold run; simpl; split; [|intros _]; lia|].
  change (run w (o :: r)) with (run (step w o) r).
  destruct (swing_step w o R) as (A & B). destruct (IH (step w o) (reach_next w o R)) as (C & D). rewrite config_step in D by exact R.
  split; [lia|]. intros M. specialize (B M). specialize (D M). lia.
Qed.

(** Between any two moments of a history: whatever the quote reserve falls by has been charged for. In pools that charge
    quote tokens for purchases the same is true of what it rises by, in the others of what the base reserve falls by. *)
Theorem C106_swings_cost : forall ops0 ops1 ops2 w, reachable w ->
  let p := p_price (w_pool w) in let w1 := run w ops0 in let w2 := run w1 ops1 in
  let gain := value p (total (trader_gain TBase) w (ops0 ++ ops1 ++ ops2)) (total (trader_gain TQuote) w (ops0 ++ ops1 ++ ops2)) in
  10000 * gain <= - 25 * value p 0 (p_quote (w_pool w1) - p_quote (w_pool w2))
  /\ (c_collect_fee_mode (w_config w) = 0 -> 10000 * gain <= - 25 * value p 0 (p_quote (w_pool w2) - p_quote (w_pool w1)))
  /\ (c_collect_fee_mode (w_config w) = 1 -> 10000 * gain <= - 25 * value p (p_base (w_pool w1) - p_base (w_pool w2)) 0).
Proof.
  intros ops0 ops1 ops2 w R p w1 w2 gain.
  destruct (C105_trading_costs (ops0 ++ ops1 ++ ops2) w R) as (G & _). fold p in G. fold gain in G.
  assert (R1 : reachable w1) by (apply reachable_run; exact R). assert (R2 : reachable w2) by (apply reachable_run; exact R1).
  destruct (swing_all ops1 w1 R1) as (SQ & SB). fold w2 in SQ, SB. pose proof (volume_all ops1 w1 R1) as SV. fold w2 in SV.
  assert (CF : w_config w1 = w_config w) by exact (fr_config _ _ (run_frame ops0 w (reachable_inv _ R))). rewrite CF in SB, SV.
  destruct (C101_fees_are_bounded ops0 w TBase R) as (VB0 & _). destruct (C101_fees_are_bounded ops0 w TQuote R) as (VQ0 & _).
  destruct (C101_fees_are_bounded ops1 w1 TBase R1) as (VB1 & _). destruct (C101_fees_are_bounded ops1 w1 TQuote R1) as (VQ1 & _).
  destruct (C101_fees_are_bounded ops2 w2 TBase R2) as (VB2 & _). destruct (C101_fees_are_bounded ops2 w2 TQuote R2) as (VQ2 & _).
  rewrite !total_app in G. fold w1 in G. fold w2 in G. clearbody gain.
  assert (PP : 0 <= p ^ 2) by (apply Z.pow_even_nonneg; exists 1; reflexivity).
  assert (T : 0 <= 2 ^ 128) by (vm_compute; discriminate). unfold value in *.
  set (s := p ^ 2) in *. set (t := 2 ^ 128) in *. clearbody s t.
  set (b0 := total (volume TBase) w ops0) in *. set (b1 := total (volume TBase) w1 ops1) in *. set (b2 := total (volume TBase) w2 ops2) in *.
  set (q0 := total (volume TQuote) w ops0) in *. set (q1 := total (volume TQuote) w1 ops1) in *. set (q2 := total (volume TQuote) w2 ops2) in *.
  clearbody b0 b1 b2 q0 q1 q2.
  assert (Y0 : 0 <= (b0 + (b1 + b2)) * s) by (apply Z.mul_nonneg_nonneg; lia).
  assert (Y1 : 0 <= (q0 + (q1 + q2)) * t) by (apply Z.mul_nonneg_nonneg; lia).
  assert (MQ : forall x, x <= q1 -> x * t <= (q0 + (q1 + q2)) * t) by (intros; apply Z.mul_le_mono_nonneg_r; lia).
  assert (MB : forall x, x <= b1 -> x * s <= (b0 + (b1 + b2)) * s) by (intros; apply Z.mul_le_mono_nonneg_r; lia).
  split; [|split].
  - apply MQ in SQ. lia.
  - intros M. specialize (SV M). apply MQ in SV. lia.
  - intros M. specialize (SB M). apply MB in SB. lia.
Qed.

(** ** Non-vacuity *)

(** Up by five per cent and all the way down again: 118 million units lost, on a way worth 1940 million. *)
Definition up : list op := [swp 500 None QuoteToBase 0 2000000000 0 1700000300 plain_view].
Definition down : list op := [swp 500 None BaseToQuote 0 1939526482792 0 1700000301 plain_view].
Example C106_case : reachable wA /\ c_collect_fee_mode (w_config wA) = 0
  /\ p_price (w_pool wA) = 576460752303423488 /\ p_price (w_pool (run wA up)) = 590439925546781507
  /\ p_price (w_pool (run wA (up ++ down))) = 576460752303425508
  /\ total (trader_gain TBase) wA (up ++ down) = 0 /\ total (trader_gain TQuote) wA (up ++ down) = -118634463
  /\ (quote_area (c_start cfgA) (curve_points cfgA) 590439925546781507
      - quote_area (c_start cfgA) (curve_points cfgA) 576460752303423488) / 2 ^ 128 = 1939999999.
Proof. split; [exists wA, []; split; [apply initialA|reflexivity]|]. vm_compute. repeat split; reflexivity. Qed.

(** The same in a pool that charges the output token: the fee of the purchase is in base tokens, that of the sale in
    quote tokens, of which 230 million are lost on a fall of 1883 million. *)
Definition upB : list op := [swp 500 None QuoteToBase 0 2000000000 0 1700000300 plain_view].
Definition downB : list op := [swp 500 None BaseToQuote 0 1878418221205 0 1700000301 plain_view].
Example C106_case_output : reachable wB /\ c_collect_fee_mode (w_config wB) = 1
  /\ p_quote (w_pool (run wB upB)) = 2000000000 /\ p_quote (w_pool (run (run wB upB) downB)) = 116997574
  /\ p_base (w_pool wB) - p_base (w_pool (run wB upB)) = 1998048780487
  /\ total (trader_gain TBase) wB (upB ++ downB) = 0 /\ total (trader_gain TQuote) wB (upB ++ downB) = -229739884.
Proof. split; [exists wB, []; split; [apply initialB|reflexivity]|]. vm_compute. repeat split; reflexivity. Qed.

Print Assumptions C106_swings_cost.
Print Assumptions C106_pumping_costs.
Print Assumptions C106_pumping_costs_own_rate.
