(** * C105: no group of traders gains. Over any history, whatever all traders together take out of a pool, valued at
    the price the history began with, is no more than what they put in, less all fees. *)
From Coq Require Import ZArith QArith Qround List Bool Lia ZifyBool Lqa.
From Verif Require Import Base MathModel CurveModel FeeModel ConfigModel PoolModel TxModel
  SystemModel Fixtures Spec SpecHist Lib CurveProofs CurveLoops Potential CalcProofs ConfigProofs FeeProofs
  SwapProofs InvProofs InvOps InvReach FixturesReach Effects Frame PropSwap PropFees PropLife PropTrade PropSpot PropCharge PropDust.
Import ListNotations.
Open Scope Z_scope.
#[local] Arguments Z.pow : simpl never.

(** ** Specification *)

(** What the trader of a swap receives less what they pay, in token [t]. *)
Definition trader_gain (t : token) (w : world) (o : op) : Z :=
  match o with
  | OSwap a => (if same_token (token_out (sa_dir a)) t then amount_at 1 (moved w o) else 0)
               - (if same_token (token_in (sa_dir a)) t then amount_at 0 (moved w o) else 0)
  | _ => 0
  end.

(** An amount of both tokens, valued in quote tokens (times 2^128) at the price with square root [p]. *)
Definition value (p base quote : Z) : Z := base * p ^ 2 + quote * 2 ^ 128.

(** The same for the swaps of the users in a group. *)
Definition group_gain (group : Z -> bool) (t : token) (w : world) (o : op) : Z :=
  match o with OSwap a => if group (sa_user a) then trader_gain t w o else 0 | _ => 0 end.

(** ** Every unit that leaves the reserves goes to the trader or into fees *)
Lemma moved_err w o e : exec w o = Err e -> moved w o = [].
Proof. intros H. unfold moved. rewrite (step_err _ _ _ H). apply skipn_all. Qed.

Lemma balance w o t : reachable w -> t = TBase \/ t = TQuote ->
  reserve t (w_pool w) - reserve t (w_pool (step w o)) = trader_gain t w o + fee_gain t w o.
Proof.
  intros R TT. destruct (exec w o) as [w'|e] eqn:H.
  2: { unfold trader_gain, fee_gain, charged. rewrite (moved_err _ _ _ H), (step_err _ _ _ H). unfold amount_at.
       destruct o; try lia. rewrite H. cbn [is_ok andb nth_error]. destruct (same_token _ _), (same_token _ _); lia. }
  pose proof (proj2 (exec_frame _ _ _ (reachable_inv _ R) H)) as FR.
  destruct o; try (unfold trader_gain, fee_gain, charged; rewrite (step_ok _ _ _ H); destruct TT as [-> | ->]; cbn [reserve];
    rewrite ?(sk_base _ _ FR), ?(sk_quote _ _ FR); lia).
  clear FR. match goal with H : exec w (OSwap ?x) = _ |- _ => rename x into a end.
  destruct (swap_observed_num _ _ _ R H) as (paid & got & fee & tr & pr & rf & num
   & C & P1 & P2 & P3 & P4 & P5 & LG & IN & OUT & FP & FS & NB & FE & CT & NR & _).
  pose proof (moved_ok _ _ _ _ H LG) as MV.
  assert (A0 : amount_at 0 (moved w (OSwap a)) = paid) by (rewrite MV; reflexivity).
  assert (A1 : amount_at 1 (moved w (OSwap a)) = got) by (rewrite MV; reflexivity).
  assert (A2 : amount_at 2 (moved w (OSwap a)) = rf).
  { rewrite MV. unfold swap_movements, amount_at. destruct (sa_referral a); cbn [nth_error t_amount]; auto.
    symmetry. auto. }
  cbv zeta in *. destruct (CT t TT) as (_ & B1 & B2 & _).
  unfold trader_gain, fee_gain, trading_gain, charged, charge_token. rewrite H, A0, A1, A2, (step_ok _ _ _ H). cbn [is_ok andb].
  clear CT FE FP LG MV. destruct C as [C|C]; rewrite C in *; cbn [Z.eqb] in *;
    destruct TT as [-> | ->]; destruct (sa_dir a); cbn [token_in token_out same_token on reserve Z.eqb Pos.eqb] in *; lia.
Qed.

Lemma balance_all t : t = TBase \/ t = TQuote -> forall ops w, reachable w ->
  reserve t (w_pool w) - reserve t (w_pool (run w ops)) = total (trader_gain t) w ops + total (fee_gain t) w ops.
Proof.
  intros TT. induction ops as [|o r IH]; intros w R; cbn [total]; [unfold run; simpl; lia|].
  change (run w (o :: r)) with (run (step w o) r).
  pose proof (balance w o t R TT). pose proof (IH _ (reach_next w o R)). lia.
Qed.

(** ** The theorems *)

(** Whatever the traders and everybody who has a share of the fees take out of a pool together, over any history, is
    worth nothing or less at the price it began with. *)
Theorem C105_no_group_gains : forall ops w, reachable w ->
  value (p_price (w_pool w))
    (total (trader_gain TBase) w ops + total (fee_gain TBase) w ops)
    (total (trader_gain TQuote) w ops + total (fee_gain TQuote) w ops) <= 0.
Proof.
  intros ops w R. rewrite <- !balance_all by auto. cbn [reserve].
  destruct (run_area ops w R) as (Q & B). cbv zeta in Q, B.
  pose proof (iv_price _ (reachable_inv _ R)) as PB.
  pose proof (iv_price _ (reachable_inv _ (reachable_run w ops R))) as PB'.
  rewrite (fr_config _ _ (run_frame ops w (reachable_inv _ R))) in PB'.
  pose proof (ok_curve _ (created_cfg_ok _ (iv_created _ (reachable_inv _ R)))) as [S _ _ W _ _ _ _].
  set (c := w_config w) in *. set (p := p_price (w_pool w)) in *. set (q := p_price (w_pool (run w ops))) in *.
  assert (CH : ((base_area (c_start c) (curve_points c) q - base_area (c_start c) (curve_points c) p) * inject_Z (p ^ 2)
     <= inject_Z (quote_area (c_start c) (curve_points c) q - quote_area (c_start c) (curve_points c) p))%Q).
  { rewrite inj_pow2. destruct (Z.le_gt_cases p q) as [L|L].
    - exact (proj1 (area_between (curve_points c) (c_start c) p q S W (proj1 PB) L)).
    - pose proof (proj2 (area_between (curve_points c) (c_start c) q p S W (proj1 PB') ltac:(lia))) as X. cbv zeta in X.
      unfold Z.sub in *. rewrite inject_Z_plus, inject_Z_opp in *. lra. }
  assert (PP : (0 <= inject_Z (p ^ 2))%Q) by (change 0%Q with (inject_Z 0); rewrite <- Zle_Qle; apply Z.pow_even_nonneg; exists 1; reflexivity).
  apply (inj_mult_pos _ _ _) with (2 := PP) in B. rewrite <- inject_Z_mult in B.
  assert (E : (- inject_Z (quote_area (c_start c) (curve_points c) q - quote_area (c_start c) (curve_points c) p)
     <= inject_Z ((p_base (w_pool (run w ops)) - p_base (w_pool w)) * p ^ 2))%Q) by lra.
  rewrite <- inject_Z_opp, <- Zle_Qle in E. unfold value. lia.
Qed.

(** The traders alone, without the fees: they lose at least a quarter of a per cent of all they trade. *)
Theorem C105_trading_costs : forall ops w, reachable w ->
  let p := p_price (w_pool w) in
  10000 * value p (total (trader_gain TBase) w ops) (total (trader_gain TQuote) w ops)
  <= - 25 * value p (total (volume TBase) w ops) (total (volume TQuote) w ops)
  /\ 0 <= value p (total (volume TBase) w ops) (total (volume TQuote) w ops).
Proof.
  intros ops w R p. pose proof (C105_no_group_gains ops w R) as G. fold p in G.
  destruct (C101_fees_cannot_be_dodged w R) as (k & _ & K & F).
  pose proof (F ops TBase) as FB. pose proof (F ops TQuote) as FQ. clear F.
  destruct (C101_fees_are_bounded ops w TBase R) as (VB & _). destruct (C101_fees_are_bounded ops w TQuote R) as (VQ & _).
  assert (PP : 0 <= p ^ 2) by (apply Z.pow_even_nonneg; exists 1; reflexivity).
  assert (T : 0 <= 2 ^ 128) by (vm_compute; discriminate). unfold value in *.
  set (s := p ^ 2) in *. set (t := 2 ^ 128) in *. clearbody s t.
  set (vb := total (volume TBase) w ops) in *. set (vq := total (volume TQuote) w ops) in *.
  set (fb := total (fee_gain TBase) w ops) in *. set (fq := total (fee_gain TQuote) w ops) in *.
  set (gb := total (trader_gain TBase) w ops) in *. set (gq := total (trader_gain TQuote) w ops) in *.
  clearbody vb vq fb fq gb gq. clear - G FB FQ VB VQ PP T K.
  assert (XB : 25 * vb <= 10000 * fb).
  { assert (2500000 * vb <= k * vb) by (apply Z.mul_le_mono_nonneg_r; lia). lia. }
  assert (XQ : 25 * vq <= 10000 * fq).
  { assert (2500000 * vq <= k * vq) by (apply Z.mul_le_mono_nonneg_r; lia). lia. }
  assert (YB : 25 * vb * s <= 10000 * fb * s) by (apply Z.mul_le_mono_nonneg_r; assumption).
  assert (YQ : 25 * vq * t <= 10000 * fq * t) by (apply Z.mul_le_mono_nonneg_r; assumption).
  split; [lia|]. assert (0 <= vb * s) by (apply Z.mul_nonneg_nonneg; assumption).
  assert (0 <= vq * t) by (apply Z.mul_nonneg_nonneg; assumption). lia.
Qed.

(** With the config's own lowest rate, the one its schedule ends at, in place of the quarter of a per cent. *)
Theorem C105_trading_costs_own_rate : forall w, reachable w ->
  let p := p_price (w_pool w) in let b := pf_base (c_fees (w_config w)) in
  exists lowest, scheduled b (bf_first b * bf_second b) lowest /\ 2500000 <= lowest
  /\ forall ops, 10 ^ 9 * value p (total (trader_gain TBase) w ops) (total (trader_gain TQuote) w ops)
                 <= - lowest * value p (total (volume TBase) w ops) (total (volume TQuote) w ops).
Proof.
  intros w R p b. destruct (C101_fees_cannot_be_dodged w R) as (k & SC & K & F). exists k. split; [exact SC|]. split; [exact K|].
  intros ops. pose proof (C105_no_group_gains ops w R) as G. fold p in G.
  pose proof (F ops TBase) as FB. pose proof (F ops TQuote) as FQ. clear F SC.
  assert (PP : 0 <= p ^ 2) by (apply Z.pow_even_nonneg; exists 1; reflexivity).
  assert (T : 0 <= 2 ^ 128) by (vm_compute; discriminate). unfold value in *.
  set (s := p ^ 2) in *. set (t := 2 ^ 128) in *. clearbody s t. change (10 ^ 9) with 1000000000.
  set (vb := total (volume TBase) w ops) in *. set (vq := total (volume TQuote) w ops) in *.
  set (fb := total (fee_gain TBase) w ops) in *. set (fq := total (fee_gain TQuote) w ops) in *.
  set (gb := total (trader_gain TBase) w ops) in *. set (gq := total (trader_gain TQuote) w ops) in *.
  clearbody vb vq fb fq gb gq. clear - G FB FQ PP T.
  apply (Z.mul_le_mono_nonneg_r _ _ s PP) in FB. apply (Z.mul_le_mono_nonneg_r _ _ t T) in FQ. lia.
Qed.

Lemma group_split group t : forall ops w,
  total (trader_gain t) w ops = total (group_gain group t) w ops + total (group_gain (fun u => negb (group u)) t) w ops.
Proof.
  induction ops as [|o r IH]; intros w; cbn [total]; [reflexivity|]. rewrite IH.
  assert (E : trader_gain t w o = group_gain group t w o + group_gain (fun u => negb (group u)) t w o).
  { unfold group_gain. destruct o; try (cbn [trader_gain]; lia). destruct (group (sa_user a)); cbn [negb]; lia. }
  lia.
Qed.

(** Whatever the users of a group gain, the others have lost, and the fees besides. *)
Theorem C105_others_paid : forall group ops w, reachable w ->
  let p := p_price (w_pool w) in let others := fun u => negb (group u) in
  value p (total (group_gain group TBase) w ops) (total (group_gain group TQuote) w ops)
  <= - value p (total (group_gain others TBase) w ops) (total (group_gain others TQuote) w ops)
     - value p (total (fee_gain TBase) w ops) (total (fee_gain TQuote) w ops)
  /\ 0 <= value p (total (fee_gain TBase) w ops) (total (fee_gain TQuote) w ops).
Proof.
  intros group ops w R p others. pose proof (C105_no_group_gains ops w R) as G. fold p in G.
  rewrite !(group_split group) in G. fold others in G.
  destruct (C101_fees_cannot_be_dodged w R) as (k & _ & K & F).
  pose proof (F ops TBase) as FB. pose proof (F ops TQuote) as FQ. clear F.
  destruct (C101_fees_are_bounded ops w TBase R) as (VB & _). destruct (C101_fees_are_bounded ops w TQuote R) as (VQ & _).
  assert (X1 : 0 <= k * total (volume TBase) w ops) by (apply Z.mul_nonneg_nonneg; lia).
  assert (X2 : 0 <= k * total (volume TQuote) w ops) by (apply Z.mul_nonneg_nonneg; lia).
  assert (PP : 0 <= p ^ 2) by (apply Z.pow_even_nonneg; exists 1; reflexivity).
  assert (T : 0 <= 2 ^ 128) by (vm_compute; discriminate). unfold value in *.
  set (s := p ^ 2) in *. set (t := 2 ^ 128) in *. clearbody s t. split; [lia|].
  assert (0 <= total (fee_gain TBase) w ops * s) by (apply Z.mul_nonneg_nonneg; lia).
  assert (0 <= total (fee_gain TQuote) w ops * t) by (apply Z.mul_nonneg_nonneg; lia). lia.
Qed.

(** ** Non-vacuity *)

(** The first half of a pool's life: five trades by three traders. At the starting price, 1/1024, the tokens the traders
    end up with are worth 21.5 billion units, and they paid 31.2 billion, of which 1.7 billion are fees. *)
Example C105_case : reachable wA
  /\ (total (trader_gain TBase) wA histA1, total (trader_gain TQuote) wA histA1,
      total (fee_gain TBase) wA histA1, total (fee_gain TQuote) wA histA1) = (22053275548478, -31164672219, 0, 1731200013)
  /\ value (p_price (w_pool wA)) 22053275548478 (-31164672219 + 1731200013) / 2 ^ 128 = -7897070304
  /\ value (p_price (w_pool wA)) 22053275548478 0 / 2 ^ 128 = 21536401902.
Proof. split; [exists wA, []; split; [apply initialA|reflexivity]|]. vm_compute. repeat split; reflexivity. Qed.

(** From the middle of the life on, where the price is higher: one sale, and what it loses against the price shown. *)
Example C105_case_sale :
  let w := run wA histA1 in let ops := [swp 500 None BaseToQuote 0 542054588290 0 1700000300 plain_view] in
  (total (trader_gain TBase) w ops, total (trader_gain TQuote) w ops, total (volume TQuote) w ops)
    = (-542054588290, 932470414, 961339725)
  /\ value (p_price (w_pool w)) (-542054588290) 932470414 / 2 ^ 128 = -33165023.
Proof. vm_compute. repeat split; reflexivity. Qed.

(** The gains of user 501, who buys and sells, and those of the others. *)
Example C105_case_group :
  (total (group_gain (fun u => u =? 501) TBase) wA histA1, total (group_gain (fun u => u =? 501) TQuote) wA histA1,
   total (group_gain (fun u => negb (u =? 501)) TBase) wA histA1, total (group_gain (fun u => negb (u =? 501)) TQuote) wA histA1)
  = (20074724682414, -29000000000, 1978550866064, -2164672219).
Proof. vm_compute. reflexivity. Qed.

Print Assumptions C105_no_group_gains.
Print Assumptions C105_trading_costs.
Print Assumptions C105_others_paid.
Print Assumptions C105_trading_costs_own_rate.
