(** * C104: the bid stays below the ask. Whoever sells at a price shown gets, per token, at least half a per cent less
    than whoever buys at that price pays, in the same pool or in another one; so there is no profit in moving tokens
    between pools, or between two moments of one pool, unless their prices differ by more than that. *)
From Coq Require Import ZArith QArith Qround List Bool Lia ZifyBool Lqa.
From Verif Require Import Base MathModel CurveModel FeeModel ConfigModel PoolModel TxModel
  SystemModel Fixtures Spec Lib CurveProofs CurveLoops Potential CalcProofs ConfigProofs FeeProofs
  SwapProofs InvProofs InvOps InvReach FixturesReach Effects Frame PropSwap Steps Walks PropSched PropRate PropTrade PropFair PropSpot
  PropFirst PropBulk PropCharge PropDust.
Import ListNotations.
Open Scope Z_scope.
#[local] Arguments Z.pow : simpl never.

(** ** Each side against the price shown *)
Lemma at_shown w a w' : reachable w -> exec w (OSwap a) = Ok w' ->
  let P := p_price (w_pool w) in
  match sa_dir a with
  | QuoteToBase => takes_out a w w' * P ^ 2 <= brings a w w' * 2 ^ 128
  | BaseToQuote => takes_out a w w' * 2 ^ 128 <= brings a w w' * P ^ 2
  end.
Proof.
  intros R H P. pose proof (along _ _ _ R H) as A. cbv zeta in A.
  pose proof (iv_price _ (reachable_inv _ R)) as PB.
  pose proof (ok_curve _ (created_cfg_ok _ (iv_created _ (reachable_inv _ R)))) as CO.
  fold P in A, PB. assert (PP : (0 <= inject_Z (P ^ 2))%Q) by (change 0%Q with (inject_Z 0); rewrite <- Zle_Qle; nia).
  assert (TT : (0 <= inject_Z (2 ^ 128))%Q) by (vm_compute; discriminate).
  set (i := brings a w w') in *. set (o := takes_out a w w') in *. clearbody i o. set (P' := p_price (w_pool w')) in *. clearbody P'.
  set (c := w_config w) in *. destruct (sa_dir a); rewrite Zle_Qle, !inject_Z_mult.
  - destruct A as (L & (G1 & G2) & _). destruct (exact_between c P' P CO ltac:(lia)) as (_ & S & _ & _).
    apply Qle_trans with ((exact_quote c P - exact_quote c P') * inject_Z (2 ^ 128))%Q; [apply Qmult_le_compat_r; assumption|].
    rewrite Qmult_comm. apply Qle_trans with (1 := S). apply Qmult_le_compat_r; assumption.
  - destruct A as (L & (G1 & G2) & _). destruct (exact_between c P P' CO ltac:(lia)) as (S & _ & _ & _).
    apply Qle_trans with ((exact_base c P' - exact_base c P) * inject_Z (P ^ 2))%Q; [apply Qmult_le_compat_r; assumption|].
    apply Qle_trans with (1 := S). rewrite Qmult_comm. apply Qmult_le_compat_r; assumption.
Qed.

Lemma less_fee o i g p j s t : 1000000000 * g <= j * o /\ i <= p \/ g <= o /\ 1000000000 * i <= j * p ->
  o * s <= i * t -> 0 <= j -> 0 <= s -> 0 <= t -> 1000000000 * (g * s) <= j * (p * t).
Proof.
  intros K A J S T. destruct K as [(K1 & K2)|(K1 & K2)].
  - apply (Z.mul_le_mono_nonneg_r _ _ s S) in K1. apply (Z.mul_le_mono_nonneg_r _ _ t T) in K2.
    apply (Z.mul_le_mono_nonneg_l _ _ j J) in K2. apply (Z.mul_le_mono_nonneg_l _ _ j J) in A. lia.
  - apply (Z.mul_le_mono_nonneg_r _ _ s S) in K1. apply (Z.mul_le_mono_nonneg_r _ _ t T) in K2. lia.
Qed.

Lemma share w a w' paid got ft x k : min_base_fee_numerator (pf_base (c_fees (w_config w))) = Ok k -> k <= 1000000000 ->
  reachable w -> exec w (OSwap a) = Ok w' -> w_log w' = w_log w ++ swap_movements a paid got ft x ->
  0 <= paid /\ 0 <= got /\ let P := p_price (w_pool w) in
  match sa_dir a with
  | QuoteToBase => 1000000000 * (got * P ^ 2) <= (1000000000 - k) * (paid * 2 ^ 128)
  | BaseToQuote => 1000000000 * (got * 2 ^ 128) <= (1000000000 - k) * (paid * P ^ 2)
  end.
Proof.
  intros KK KB R H LG. pose proof (at_shown _ _ _ R H) as A. pose proof (brings_nonneg _ _ _ R H) as (B1 & B2).
  destruct (swap_observed_num _ _ _ R H) as (pd & gt & fee & tr & pr & rf & num
   & C & P1 & P2 & P3 & P4 & P5 & L & IN & OUT & FP & FS & NB & FE & CT & NR & vt & _ & _ & NF & _).
  pose proof (num_lowest _ _ _ _ _ _ k (iv_created _ (reachable_inv _ R)) NF KK) as N1. clear CT NR FP NF KK.
  rewrite LG in L. apply movements_inj in L. destruct L as (-> & ->). clear LG.
  split; [exact P1|]. split; [exact P2|]. cbv zeta in *.
  assert (FE' : forall v, 0 <= v -> fee = ceil_div (num * v) 1000000000 -> k * v <= 1000000000 * fee).
  { intros v V E. rewrite ceil_div_cdiv in E by reflexivity. pose proof (cdiv_ub (num * v) 1000000000 eq_refl) as U.
    rewrite <- E in U. assert (k * v <= num * v) by (apply Z.mul_le_mono_nonneg_r; lia). lia. }
  assert (F0 : 0 <= fee) by lia.
  assert (K : 1000000000 * gt <= (1000000000 - k) * takes_out a w w' /\ brings a w w' <= pd
              \/ gt <= takes_out a w w' /\ 1000000000 * brings a w w' <= (1000000000 - k) * pd).
  { unfold takes_out, brings in *. rewrite OUT in *.
    destruct C as [C|C]; rewrite C in FE, IN, OUT |- *; cbn [Z.eqb] in FE, IN, OUT |- *; destruct (sa_dir a);
      cbn [token_in token_out on] in FE, IN, OUT |- *.
    - left. apply FE' in FE; lia.
    - right. apply FE' in FE; lia.
    - left. apply FE' in FE; lia.
    - left. apply FE' in FE; lia. }
  assert (PP : 0 <= p_price (w_pool w) ^ 2) by (apply Z.pow_nonneg; pose proof (iv_price _ (reachable_inv _ R));
    pose proof (ok_curve _ (created_cfg_ok _ (iv_created _ (reachable_inv _ R)))) as [S _ _ _ _ _ _ _]; lia).
  assert (T : 0 <= 2 ^ 128) by (vm_compute; discriminate).
  set (s := p_price (w_pool w) ^ 2) in *. set (t := 2 ^ 128) in *. clearbody s t.
  set (i := brings a w w') in *. set (o := takes_out a w w') in *. clearbody i o. clear - K A PP T P1 P2 B1 B2 KB.
  assert (J : 0 <= 1000000000 - k) by lia. set (j := 1000000000 - k) in *. clearbody j. clear KB k.
  destruct (sa_dir a); apply (less_fee o i); assumption.
Qed.

Lemma quarter w a w' paid got ft x :
  reachable w -> exec w (OSwap a) = Ok w' -> w_log w' = w_log w ++ swap_movements a paid got ft x ->
  0 <= paid /\ 0 <= got /\ let P := p_price (w_pool w) in
  match sa_dir a with
  | QuoteToBase => 10000 * (got * P ^ 2) <= 9975 * (paid * 2 ^ 128)
  | BaseToQuote => 10000 * (got * 2 ^ 128) <= 9975 * (paid * P ^ 2)
  end.
Proof.
  intros R H LG. pose proof (at_shown _ _ _ R H) as A. pose proof (brings_nonneg _ _ _ R H) as (B1 & B2).
  destruct (swap_observed_num _ _ _ R H) as (pd & gt & fee & tr & pr & rf & num
   & C & P1 & P2 & P3 & P4 & P5 & L & IN & OUT & FP & FS & NB & FE & CT & NR & vt & _ & _ & NF & _).
  destruct (num_floor _ _ _ _ _ _ (iv_created _ (reachable_inv _ R)) NF) as (N1 & _). clear CT NR FP NF.
  rewrite LG in L. apply movements_inj in L. destruct L as (-> & ->). clear LG.
  split; [exact P1|]. split; [exact P2|]. cbv zeta in *.
  assert (FE' : forall v, 0 <= v -> fee = ceil_div (num * v) 1000000000 -> 25 * v <= 10000 * fee).
  { intros v V E. rewrite ceil_div_cdiv in E by reflexivity. pose proof (cdiv_ub (num * v) 1000000000 eq_refl) as U.
    rewrite <- E in U. assert (2500000 * v <= num * v) by (apply Z.mul_le_mono_nonneg_r; lia). lia. }
  assert (F0 : 0 <= fee) by lia.
  assert (K : 10000 * gt <= 9975 * takes_out a w w' /\ brings a w w' <= pd
              \/ gt <= takes_out a w w' /\ 10000 * brings a w w' <= 9975 * pd).
  { unfold takes_out, brings in *. rewrite OUT in *.
    destruct C as [C|C]; rewrite C in FE, IN, OUT |- *; cbn [Z.eqb] in FE, IN, OUT |- *; destruct (sa_dir a);
      cbn [token_in token_out on] in FE, IN, OUT |- *.
    - left. apply FE' in FE; lia.
    - right. apply FE' in FE; lia.
    - left. apply FE' in FE; lia.
    - left. apply FE' in FE; lia. }
  assert (PP : 0 <= p_price (w_pool w) ^ 2) by (apply Z.pow_nonneg; pose proof (iv_price _ (reachable_inv _ R));
    pose proof (ok_curve _ (created_cfg_ok _ (iv_created _ (reachable_inv _ R)))) as [S _ _ _ _ _ _ _]; lia).
  assert (T : 0 <= 2 ^ 128) by (vm_compute; discriminate).
  set (s := p_price (w_pool w) ^ 2) in *. set (t := 2 ^ 128) in *. clearbody s t.
  set (i := brings a w w') in *. set (o := takes_out a w w') in *. clearbody i o. clear - K A PP T P1 P2 B1 B2.
  destruct (sa_dir a); destruct K as [(K1 & K2)|(K1 & K2)]; nia.
Qed.

(** ** The theorems *)

(** A purchase and a sale, anywhere and at any time: what the seller gets per token, against what the buyer pays per
    token, is at most 0.9975 squared times the ratio of the prices shown to them. *)
Theorem C104_spread : forall wb a wb' paid got ft x ws b ws' sold received ft' x',
  reachable wb -> exec wb (OSwap a) = Ok wb' -> sa_dir a = QuoteToBase ->
  w_log wb' = w_log wb ++ swap_movements a paid got ft x ->
  reachable ws -> exec ws (OSwap b) = Ok ws' -> sa_dir b = BaseToQuote ->
  w_log ws' = w_log ws ++ swap_movements b sold received ft' x' ->
  10000 ^ 2 * (received * got * p_price (w_pool wb) ^ 2) <= 9975 ^ 2 * (sold * paid * p_price (w_pool ws) ^ 2).
Proof.
  intros wb a wb' paid got ft x ws b ws' sold received ft' x' R1 H1 D1 L1 R2 H2 D2 L2.
  destruct (quarter _ _ _ _ _ _ _ R1 H1 L1) as (N1 & N2 & A1). destruct (quarter _ _ _ _ _ _ _ R2 H2 L2) as (N3 & N4 & A2).
  cbv zeta in A1, A2. rewrite D1 in A1. rewrite D2 in A2.
  assert (T : 0 < 2 ^ 128) by (vm_compute; reflexivity).
  assert (PB : 0 <= p_price (w_pool wb) ^ 2) by (apply Z.pow_even_nonneg; exists 1; reflexivity).
  assert (PS : 0 <= p_price (w_pool ws) ^ 2) by (apply Z.pow_even_nonneg; exists 1; reflexivity).
  set (s := p_price (w_pool wb) ^ 2) in *. set (r := p_price (w_pool ws) ^ 2) in *. set (t := 2 ^ 128) in *.
  clearbody s r t. change (10000 ^ 2) with (10000 * 10000). change (9975 ^ 2) with (9975 * 9975).
  clear - N1 N2 N3 N4 A1 A2 T PB PS.
  apply (Z.mul_le_mono_pos_r _ _ t T).
  apply Z.le_trans with ((10000 * (got * s)) * (9975 * (sold * r))).
  - replace (10000 * 10000 * (received * got * s) * t) with ((10000 * (got * s)) * (10000 * (received * t))) by ring.
    apply Z.mul_le_mono_nonneg_l; [|exact A2]. apply Z.mul_nonneg_nonneg; [lia|]. apply Z.mul_nonneg_nonneg; assumption.
  - replace (9975 * 9975 * (sold * paid * r) * t) with ((9975 * (paid * t)) * (9975 * (sold * r))) by ring.
    apply Z.mul_le_mono_nonneg_r; [|exact A1]. apply Z.mul_nonneg_nonneg; [lia|]. apply Z.mul_nonneg_nonneg; assumption.
Qed.

(** The same with the configs' own lowest rates, the ones their schedules end at, in place of the quarter of a per cent. *)
Theorem C104_spread_own_rates : forall wb a wb' paid got ft x ws b ws' sold received ft' x',
  reachable wb -> exec wb (OSwap a) = Ok wb' -> sa_dir a = QuoteToBase ->
  w_log wb' = w_log wb ++ swap_movements a paid got ft x ->
  reachable ws -> exec ws (OSwap b) = Ok ws' -> sa_dir b = BaseToQuote ->
  w_log ws' = w_log ws ++ swap_movements b sold received ft' x' ->
  let fb := pf_base (c_fees (w_config wb)) in let fs := pf_base (c_fees (w_config ws)) in
  exists lb ls, scheduled fb (bf_first fb * bf_second fb) lb /\ scheduled fs (bf_first fs * bf_second fs) ls
  /\ 2500000 <= lb /\ 2500000 <= ls
  /\ (10 ^ 9) ^ 2 * (received * got * p_price (w_pool wb) ^ 2)
     <= (10 ^ 9 - lb) * (10 ^ 9 - ls) * (sold * paid * p_price (w_pool ws) ^ 2).
Proof.
  intros wb a wb' paid got ft x ws b ws' sold received ft' x' R1 H1 D1 L1 R2 H2 D2 L2 fb fs.
  destruct (lowest_exists _ (iv_created _ (reachable_inv _ R1))) as (lb & K1 & B1 & S1). fold fb in K1, S1.
  destruct (lowest_exists _ (iv_created _ (reachable_inv _ R2))) as (ls & K2 & B2 & S2). fold fs in K2, S2.
  exists lb, ls. split; [exact S1|]. split; [exact S2|]. split; [lia|]. split; [lia|].
  destruct (share _ _ _ _ _ _ _ lb K1 ltac:(lia) R1 H1 L1) as (N1 & N2 & A1).
  destruct (share _ _ _ _ _ _ _ ls K2 ltac:(lia) R2 H2 L2) as (N3 & N4 & A2).
  cbv zeta in A1, A2. rewrite D1 in A1. rewrite D2 in A2.
  assert (T : 0 < 2 ^ 128) by (vm_compute; reflexivity).
  assert (PB : 0 <= p_price (w_pool wb) ^ 2) by (apply Z.pow_even_nonneg; exists 1; reflexivity).
  assert (PS : 0 <= p_price (w_pool ws) ^ 2) by (apply Z.pow_even_nonneg; exists 1; reflexivity).
  set (s := p_price (w_pool wb) ^ 2) in *. set (r := p_price (w_pool ws) ^ 2) in *. set (t := 2 ^ 128) in *.
  clearbody s r t. change ((10 ^ 9) ^ 2) with (1000000000 * 1000000000). change (10 ^ 9) with 1000000000.
  assert (J1 : 0 <= 1000000000 - lb) by lia. assert (J2 : 0 <= 1000000000 - ls) by lia.
  set (u := 1000000000 - lb) in *. set (v := 1000000000 - ls) in *. clearbody u v.
  clear - N1 N2 N3 N4 A1 A2 T PB PS J1 J2.
  apply (Z.mul_le_mono_pos_r _ _ t T).
  apply Z.le_trans with ((1000000000 * (got * s)) * (v * (sold * r))).
  - replace (1000000000 * 1000000000 * (received * got * s) * t) with ((1000000000 * (got * s)) * (1000000000 * (received * t))) by ring.
    apply Z.mul_le_mono_nonneg_l; [|exact A2]. apply Z.mul_nonneg_nonneg; [lia|]. apply Z.mul_nonneg_nonneg; assumption.
  - replace (u * v * (sold * paid * r) * t) with ((u * (paid * t)) * (v * (sold * r))) by ring.
    apply Z.mul_le_mono_nonneg_r; [|exact A1]. apply Z.mul_nonneg_nonneg; [assumption|]. apply Z.mul_nonneg_nonneg; assumption.
Qed.

(** Who sells no more tokens than they bought gets back more than they paid only if the seller's price (the square of
    what is shown) was more than half a per cent above the buyer's: by the factor 1 / 0.9975 squared. *)
Theorem C104_no_arbitrage : forall wb a wb' paid got ft x ws b ws' sold received ft' x',
  reachable wb -> exec wb (OSwap a) = Ok wb' -> sa_dir a = QuoteToBase ->
  w_log wb' = w_log wb ++ swap_movements a paid got ft x ->
  reachable ws -> exec ws (OSwap b) = Ok ws' -> sa_dir b = BaseToQuote ->
  w_log ws' = w_log ws ++ swap_movements b sold received ft' x' ->
  sold <= got -> paid < received ->
  10000 ^ 2 * p_price (w_pool wb) ^ 2 < 9975 ^ 2 * p_price (w_pool ws) ^ 2.
Proof.
  intros wb a wb' paid got ft x ws b ws' sold received ft' x' R1 H1 D1 L1 R2 H2 D2 L2 SG PR.
  pose proof (C104_spread _ _ _ _ _ _ _ _ _ _ _ _ _ _ R1 H1 D1 L1 R2 H2 D2 L2) as SP.
  destruct (quarter _ _ _ _ _ _ _ R1 H1 L1) as (N1 & N2 & A1). destruct (quarter _ _ _ _ _ _ _ R2 H2 L2) as (N3 & N4 & A2).
  cbv zeta in A1, A2. rewrite D1 in A1. rewrite D2 in A2.
  assert (T : 0 < 2 ^ 128) by (vm_compute; reflexivity).
  assert (PB : 0 < p_price (w_pool wb) ^ 2).
  { apply Z.pow_pos_nonneg; [|lia]. pose proof (iv_price _ (reachable_inv _ R1)).
    pose proof (ok_curve _ (created_cfg_ok _ (iv_created _ (reachable_inv _ R1)))) as [S _ _ _ _ _ _ _]. lia. }
  assert (PS : 0 <= p_price (w_pool ws) ^ 2) by (apply Z.pow_even_nonneg; exists 1; reflexivity).
  set (s := p_price (w_pool wb) ^ 2) in *. set (r := p_price (w_pool ws) ^ 2) in *. set (t := 2 ^ 128) in *.
  clearbody s r t. change (10000 ^ 2) with 100000000 in *. change (9975 ^ 2) with 99500625 in *.
  clear - N1 N2 N3 N4 A1 A2 T PB PS SP SG PR.
  assert (S0 : 0 < sold).
  { destruct (Z.eq_dec sold 0) as [->|]; [|lia]. rewrite Z.mul_0_l, Z.mul_0_r in A2.
    assert (0 < received * t) by (apply Z.mul_pos_pos; lia). lia. }
  destruct (Z.lt_ge_cases (100000000 * s) (99500625 * r)) as [G|G]; [exact G|exfalso].
  assert (X1 : 99500625 * r * (sold * paid) <= 100000000 * s * (sold * paid)).
  { apply Z.mul_le_mono_nonneg_r; [apply Z.mul_nonneg_nonneg; lia|exact G]. }
  assert (X2 : sold * paid < received * got).
  { apply Z.le_lt_trans with (got * paid); [apply Z.mul_le_mono_nonneg_r; lia|].
    rewrite (Z.mul_comm received). apply Z.mul_lt_mono_pos_l; lia. }
  assert (X3 : 100000000 * s * (sold * paid) < 100000000 * s * (received * got)) by (apply Z.mul_lt_mono_pos_l; lia).
  replace (99500625 * (sold * paid * r)) with (99500625 * r * (sold * paid)) in SP by ring.
  replace (100000000 * (received * got * s)) with (100000000 * s * (received * got)) in SP by ring. lia.
Qed.

(** ** The hypotheses are met *)
Definition amounts (w : world) (a : swap_args) : option (Z * Z) :=
  match exec w (OSwap a) with
  | Ok w' => match skipn (length (w_log w)) (w_log w') with
             | x :: y :: _ => Some (t_amount x, t_amount y)
             | _ => None
             end
  | Err _ => None
  end.

(** In the middle of a pool's life, what a billion units buy is worth 932 million to a seller at the same moment. *)
Example C104_case : reachable (run wA histA1)
  /\ amounts (run wA histA1) (sw QuoteToBase 0 1000000000 0 1700000300) = Some (1000000000, 542054588290)
  /\ amounts (run wA histA1) (sw BaseToQuote 0 542054588290 0 1700000300) = Some (542054588290, 932470414)
  /\ 10000 ^ 2 * (932470414 * 542054588290) < 9975 ^ 2 * (542054588290 * 1000000000).
Proof. split; [exists wA, histA1; split; [apply initialA|reflexivity]|]. vm_compute. repeat split; reflexivity. Qed.

(** Bought at the start and sold after others have bought, at a price a good deal higher: a profit. *)
Example C104_case_gap : reachable wA
  /\ amounts wA (sw QuoteToBase 0 1000000000 0 1700000300) = Some (1000000000, 981380758305)
  /\ amounts (run wA histA1) (sw BaseToQuote 0 981380758305 0 1700000300) = Some (981380758305, 1682157053)
  /\ 10000 ^ 2 * p_price (w_pool wA) ^ 2 < 9975 ^ 2 * p_price (w_pool (run wA histA1)) ^ 2.
Proof. split; [exists wA, []; split; [apply initialA|reflexivity]|]. vm_compute. repeat split; reflexivity. Qed.

Print Assumptions C104_spread.
Print Assumptions C104_spread_own_rates.
Print Assumptions C104_no_arbitrage.
