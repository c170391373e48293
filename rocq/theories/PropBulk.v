(** * C103: the larger the trade, the worse its price. Of two trades in one direction at the same state, whatever
    their kinds, fees and times, the one that brings more gets no more per token. *)
From Coq Require Import ZArith QArith Qround List Bool Lia ZifyBool Lqa.
From Verif Require Import Base MathModel CurveModel FeeModel ConfigModel PoolModel TxModel
  SystemModel Fixtures Spec Lib CurveProofs CurveLoops Potential CalcProofs ConfigProofs FeeProofs
  SwapProofs InvProofs InvOps InvReach FixturesReach Effects Frame PropSwap Steps Walks PropTrade PropFair PropSpot PropFirst.
Import ListNotations.
Open Scope Z_scope.
#[local] Arguments Z.pow : simpl never.

(** ** Specification *)

(** What a trade brings into the reserve and what it takes out of it, fees aside. *)
Definition brings (a : swap_args) (w w' : world) : Z :=
  reserve (token_in (sa_dir a)) (w_pool w') - reserve (token_in (sa_dir a)) (w_pool w).
Definition takes_out (a : swap_args) (w w' : world) : Z :=
  reserve (token_out (sa_dir a)) (w_pool w) - reserve (token_out (sa_dir a)) (w_pool w').

(** ** One trade against the curve *)
Lemma brings_nonneg w a w' : reachable w -> exec w (OSwap a) = Ok w' -> 0 <= brings a w w' /\ 0 <= takes_out a w w'.
Proof.
  intros R H. destruct (reach_swap _ _ _ R H) as (K & _ & _ & _ & r & fm & num & fee & gross & pf & cf & cur & p1 & E & _ & _).
  pose proof (se_facts _ _ _ _ _ _ _ _ _ _ _ E) as SF.
  destruct (effect_applied _ _ _ _ _ _ _ _ _ _ _ E) as (p2 & AP & SM). destruct SM as (SP & SB & SQ & _).
  unfold brings, takes_out. pose proof (sf_gross _ _ _ _ _ _ _ _ SF) as G. pose proof (sf_excl _ _ _ _ _ _ _ _ SF) as X.
  destruct (sa_dir a); cbn [token_in token_out reserve];
    rewrite SB, SQ, (ap_base _ _ _ _ _ _ _ _ _ AP), (ap_quote _ _ _ _ _ _ _ _ _ AP); cbn [fi_db fi_dq]; lia.
Qed.

Lemma along w a w' : reachable w -> exec w (OSwap a) = Ok w' ->
  let c := w_config w in let P := p_price (w_pool w) in let P' := p_price (w_pool w') in
  let inn := brings a w w' in let out := takes_out a w w' in
  let k := Z.of_nat (length (curve_points c)) + 3 in
  match sa_dir a with
  | QuoteToBase =>
      P <= P' /\ (exact_quote c P' - exact_quote c P <= inject_Z inn /\ inject_Z out <= exact_base c P' - exact_base c P)%Q
      /\ (inn <= k \/ exists m, P <= m <= P' /\ (inject_Z (inn - k) <= exact_quote c m - exact_quote c P
                                              /\ exact_base c m - exact_base c P <= inject_Z (out + k))%Q)
  | BaseToQuote =>
      c_start c <= P' <= P
      /\ (exact_base c P - exact_base c P' <= inject_Z inn /\ inject_Z out <= exact_quote c P - exact_quote c P')%Q
      /\ ((P' = c_start c /\ (exact_quote c P - exact_quote c P' <= inject_Z (out + k))%Q)
          \/ exists m, c_start c <= m <= P /\ (inject_Z (inn - k) <= exact_base c P - exact_base c m
                                              /\ exact_quote c P - exact_quote c m <= inject_Z (out + k))%Q)
  end.
Proof.
  intros R H c P P' inn out k.
  pose proof (C65_fair_execution _ _ _ R H) as FX. cbv zeta in FX.
  pose proof (C10_price_direction _ _ _ R H) as DR.
  destruct (C11_rounding_favours_pool _ _ _ R H) as (Q1 & B1). cbv zeta in Q1, B1.
  pose proof (iv_price _ (reachable_inv _ R)) as PB.
  pose proof (reachable_exec _ _ _ R H) as R'. pose proof (iv_price _ (reachable_inv _ R')) as PB'.
  assert (CC : w_config w' = w_config w) by apply (proj1 (exec_frame _ _ _ (reachable_inv _ R) H)). rewrite CC in PB'. clear CC R'.
  pose proof (ok_curve _ (created_cfg_ok _ (iv_created _ (reachable_inv _ R)))) as CO.
  fold c in FX, Q1, B1, PB, PB', CO. fold P P' in FX, DR, Q1, B1, PB, PB'.
  assert (T0 : (0 < inject_Z (2 ^ 128))%Q) by reflexivity.
  assert (EQ : (exact_quote c P' - exact_quote c P <= inject_Z (p_quote (w_pool w') - p_quote (w_pool w)))%Q).
  { rewrite Zle_Qle, inject_Z_mult in Q1. rewrite <- exact_scaled in Q1. rewrite (Qmult_comm (inject_Z (_ - _))) in Q1.
    apply Qmult_le_l in Q1; auto. }
  fold (exact_base c P) (exact_base c P') in B1.
  assert (KE : (inject_Z (Z.of_nat (length (curve_points c)) + 2) == inject_Z k - 1)%Q).
  { unfold k. replace (Z.of_nat (length (curve_points c)) + 2) with (Z.of_nat (length (curve_points c)) + 3 + -1) by lia.
    rewrite inject_Z_plus. reflexivity. }
  set (k0 := inject_Z (Z.of_nat (length (curve_points c)) + 2)) in *. clearbody k k0. clear Q1.
  pose proof (fun x => quote_step c x CO) as QS.
  unfold inn, out, brings, takes_out. destruct (sa_dir a); cbn [token_in token_out reserve].
  - specialize (QS (P' - 1)). replace (P' - 1 + 1) with P' in QS by lia.
    destruct FX as (F1 & F2). split; [lia|].
    assert (OU : (inject_Z (p_quote (w_pool w) - p_quote (w_pool w')) <= exact_quote c P - exact_quote c P')%Q).
    { replace (p_quote (w_pool w) - p_quote (w_pool w')) with (- (p_quote (w_pool w') - p_quote (w_pool w))) by lia.
      rewrite inject_Z_opp. lra. }
    split; [split; [exact B1|exact OU]|].
    assert (O1 : (exact_quote c P - exact_quote c P' + 1 <= inject_Z (p_quote (w_pool w) - p_quote (w_pool w') + k))%Q).
    { rewrite inject_Z_plus. lra. }
    destruct (P' =? c_start c) eqn:PS; [left; split; [lia|lra]|right].
    exists (if sa_mode a =? 2 then P' else P' - 1). 
    split; [destruct (sa_mode a =? 2); lia|]. split.
    + unfold Z.sub at 1. rewrite inject_Z_plus, inject_Z_opp. lra.
    + destruct (sa_mode a =? 2); lra.
  - destruct FX as (F1 & F2). split; [lia|].
    assert (OU : (inject_Z (p_base (w_pool w) - p_base (w_pool w')) <= exact_base c P' - exact_base c P)%Q).
    { replace (p_base (w_pool w) - p_base (w_pool w')) with (- (p_base (w_pool w') - p_base (w_pool w))) by lia.
      rewrite inject_Z_opp. lra. }
    split; [split; [exact EQ|exact OU]|].
    destruct (Z.eq_dec P P') as [PE|PN].
    + left. rewrite Zle_Qle. rewrite <- PE in F1. lra.
    + right. exists (if sa_mode a =? 2 then P' - 1 else P'). split; [destruct (sa_mode a =? 2); lia|].
      rewrite inject_Z_plus. unfold Z.sub at 1. rewrite inject_Z_plus, inject_Z_opp.
      specialize (QS (P' - 1)). replace (P' - 1 + 1) with P' in QS by lia. destruct (sa_mode a =? 2); split; lra.
Qed.

(** ** Chords of the curve *)
Lemma qmul_mono (a b c d : Q) : (0 <= a -> a <= b -> 0 <= c -> c <= d -> a * c <= b * d)%Q.
Proof.
  intros A AB C CD. apply Qle_trans with (a * d)%Q.
  - rewrite (Qmult_comm a c), (Qmult_comm a d). apply Qmult_le_compat_r; assumption.
  - apply Qmult_le_compat_r; [assumption|]. lra.
Qed.

Lemma slopes (T s q b q' b' : Q) :
  (0 < T -> 0 <= q -> 0 <= b -> 0 <= b' -> T * q <= b * s -> b' * s <= T * q' -> q * b' <= b * q')%Q.
Proof.
  intros T0 Q0 B0 B0' H1 H2. apply (Qmult_le_l _ _ T T0).
  apply Qle_trans with ((b * s) * b')%Q.
  - setoid_replace (T * (q * b'))%Q with ((T * q) * b')%Q by ring. apply Qmult_le_compat_r; assumption.
  - setoid_replace ((b * s) * b')%Q with ((b' * s) * b)%Q by ring.
    setoid_replace (T * (b * q'))%Q with ((T * q') * b)%Q by ring. apply Qmult_le_compat_r; assumption.
Qed.

Lemma chain (x i o y q b X Y : Q) :
  (0 <= x -> x <= X -> i <= q -> 0 <= q -> X * q <= b * Y -> 0 <= b -> b <= o -> 0 <= Y -> Y <= y -> x * i <= o * y)%Q.
Proof.
  intros. apply Qle_trans with (x * q)%Q.
  - rewrite (Qmult_comm x i), (Qmult_comm x q). apply Qmult_le_compat_r; assumption.
  - apply Qle_trans with (X * q)%Q; [apply Qmult_le_compat_r; assumption|].
    apply Qle_trans with (b * Y)%Q; [assumption|]. apply qmul_mono; assumption.
Qed.

(** ** The theorem *)

(** Of two trades in one direction, each made in the state [w], the one that brings at least as much takes out no
    more per token: takes2 / brings2 <= takes1 / brings1, up to [k] units of rounding on either side of the smaller. *)
Theorem C103_larger_is_dearer : forall w a1 w1 a2 w2,
  reachable w -> exec w (OSwap a1) = Ok w1 -> exec w (OSwap a2) = Ok w2 -> sa_dir a1 = sa_dir a2 ->
  brings a1 w w1 <= brings a2 w w2 ->
  let k := Z.of_nat (length (curve_points (w_config w))) + 3 in
  takes_out a2 w w2 * (brings a1 w w1 - k) <= (takes_out a1 w w1 + k) * brings a2 w w2.
Proof.
  intros w a1 w1 a2 w2 R H1 H2 D LE k.
  pose proof (brings_nonneg _ _ _ R H1) as (N1 & N1'). pose proof (brings_nonneg _ _ _ R H2) as (N2 & N2').
  pose proof (along _ _ _ R H1) as A1. pose proof (along _ _ _ R H2) as A2. cbv zeta in A1, A2. fold k in A1, A2.
  pose proof (iv_price _ (reachable_inv _ R)) as PB.
  pose proof (ok_curve _ (created_cfg_ok _ (iv_created _ (reachable_inv _ R)))) as CO.
  assert (K0 : 0 <= k) by (unfold k; lia). clearbody k.
  rewrite <- D in A2. set (c := w_config w) in *. set (P := p_price (w_pool w)) in *.
  set (i1 := brings a1 w w1) in *. set (o1 := takes_out a1 w w1) in *.
  set (i2 := brings a2 w w2) in *. set (o2 := takes_out a2 w w2) in *.
  set (P1 := p_price (w_pool w1)) in *. set (P2 := p_price (w_pool w2)) in *.
  assert (EASY : o2 <= o1 + k -> o2 * (i1 - k) <= (o1 + k) * i2).
  { intros E. apply Z.le_trans with (o2 * i2); [apply Z.mul_le_mono_nonneg_l; lia|apply Z.mul_le_mono_nonneg_r; lia]. }
  assert (SMALL : i1 <= k -> o2 * (i1 - k) <= (o1 + k) * i2).
  { intros E. apply Z.le_trans with 0; [apply Z.mul_nonneg_nonpos; lia|apply Z.mul_nonneg_nonneg; lia]. }
  assert (T0 : (0 < inject_Z (2 ^ 128))%Q) by reflexivity.
  assert (O2 : (0 <= inject_Z o2)%Q) by (change 0%Q with (inject_Z 0); rewrite <- Zle_Qle; exact N2').
  clearbody i1 o1 i2 o2 P1 P2 P c. clear R H1 H2 D.
  destruct (sa_dir a1).
  - destruct A1 as (L1 & _ & W1). destruct A2 as (L2 & (G1 & G2) & _).
    destruct W1 as [(E & X)|(m & M & X1 & X2)].
    + apply EASY. rewrite Zle_Qle.
      pose proof (exact_between c P1 P2 CO ltac:(lia)) as (_ & _ & _ & S). lra.
    + pose proof (exact_between c m P CO ltac:(lia)) as (S1 & _ & S3 & S4).
      destruct (Z_le_gt_dec P2 m) as [LM|GM].
      * pose proof (exact_between c P2 m CO ltac:(lia)) as (_ & V2 & V3 & V4).
        rewrite Zle_Qle, !inject_Z_mult.
        pose proof (slopes (inject_Z (2 ^ 128)) (inject_Z (m ^ 2)) _ _ _ _ T0 V4 V3 S3 V2 S1) as SL.
        apply (chain _ _ _ _ (exact_base c P - exact_base c m) (exact_quote c P - exact_quote c m)
                 (exact_quote c P - exact_quote c P2) (exact_base c P - exact_base c P2)); auto; lra.
      * apply EASY. rewrite Zle_Qle. pose proof (exact_between c m P2 CO ltac:(lia)) as (_ & _ & _ & S). lra.
  - destruct A1 as (L1 & _ & W1). destruct A2 as (L2 & (G1 & G2) & _).
    destruct W1 as [E|(m & M & X1 & X2)]; [exact (SMALL E)|].
    pose proof (exact_between c P m CO ltac:(lia)) as (_ & S2 & S3 & S4).
    destruct (Z_le_gt_dec m P2) as [LM|GM].
    * pose proof (exact_between c m P2 CO ltac:(lia)) as (V1 & _ & V3 & V4).
      rewrite Zle_Qle, !inject_Z_mult.
      pose proof (slopes (inject_Z (2 ^ 128)) (inject_Z (m ^ 2)) _ _ _ _ T0 S4 S3 V3 S2 V1) as SL.
      apply (chain _ _ _ _ (exact_quote c m - exact_quote c P) (exact_base c m - exact_base c P)
               (exact_base c P2 - exact_base c P) (exact_quote c P2 - exact_quote c P)); auto; lra.
    * apply EASY. rewrite Zle_Qle. pose proof (exact_between c P2 m CO ltac:(lia)) as (_ & _ & S & _). lra.
Qed.

(** No bargain: the trade that takes out clearly more brings no less, up to rounding. *)
Theorem C103_no_bargain : forall w a1 w1 a2 w2,
  reachable w -> exec w (OSwap a1) = Ok w1 -> exec w (OSwap a2) = Ok w2 -> sa_dir a1 = sa_dir a2 ->
  let k := Z.of_nat (length (curve_points (w_config w))) + 3 in
  takes_out a1 w w1 + k < takes_out a2 w w2 -> brings a1 w w1 - k <= brings a2 w w2.
Proof.
  intros w a1 w1 a2 w2 R H1 H2 D k LT.
  enough (takes_out a2 w w2 <= takes_out a1 w w1 + k \/ brings a1 w w1 - k <= brings a2 w w2) by lia. clear LT.
  pose proof (brings_nonneg _ _ _ R H1) as (N1 & N1'). pose proof (brings_nonneg _ _ _ R H2) as (N2 & N2').
  pose proof (along _ _ _ R H1) as A1. pose proof (along _ _ _ R H2) as A2. cbv zeta in A1, A2. fold k in A1, A2.
  pose proof (iv_price _ (reachable_inv _ R)) as PB.
  pose proof (ok_curve _ (created_cfg_ok _ (iv_created _ (reachable_inv _ R)))) as CO.
  assert (K0 : 0 <= k) by (unfold k; lia). clearbody k.
  rewrite <- D in A2. set (c := w_config w) in *. set (P := p_price (w_pool w)) in *.
  set (P1 := p_price (w_pool w1)) in *. set (P2 := p_price (w_pool w2)) in *.
  destruct (sa_dir a1).
  - destruct A1 as (L1 & _ & W1). destruct A2 as (L2 & (G1 & G2) & _).
    destruct W1 as [(E & X)|(m & M & X1 & X2)].
    + left. rewrite Zle_Qle. pose proof (exact_between c P1 P2 CO ltac:(lia)) as (_ & _ & _ & S). lra.
    + destruct (Z_le_gt_dec P2 m) as [LM|GM].
      * right. rewrite Zle_Qle. pose proof (exact_between c P2 m CO ltac:(lia)) as (_ & _ & S & _). lra.
      * left. rewrite Zle_Qle. pose proof (exact_between c m P2 CO ltac:(lia)) as (_ & _ & _ & S). lra.
  - destruct A1 as (L1 & _ & W1). destruct A2 as (L2 & (G1 & G2) & _).
    destruct W1 as [E|(m & M & X1 & X2)]; [right; lia|].
    destruct (Z_le_gt_dec m P2) as [LM|GM].
    * right. rewrite Zle_Qle. pose proof (exact_between c m P2 CO ltac:(lia)) as (_ & _ & _ & S). lra.
    * left. rewrite Zle_Qle. pose proof (exact_between c P2 m CO ltac:(lia)) as (_ & _ & S & _). lra.
Qed.

(** ** The hypotheses are met *)
Definition sw (d : direction) (mode a0 a1 now : Z) : swap_args :=
  mkSwapArgs 500 None d mode a0 a1 (1000 + (now - 1700000000) * 2) now plain_view.
Definition both (w : world) (a1 a2 : swap_args) : option (Z * Z * Z * Z) :=
  match exec w (OSwap a1), exec w (OSwap a2) with
  | Ok w1, Ok w2 => Some (brings a1 w w1, takes_out a1 w w1, brings a2 w w2, takes_out a2 w w2)
  | _, _ => None
  end.

(** A small and a ten times larger purchase in the middle of a pool's life, at different times and of different kinds. *)
Example C103_case : reachable (run wA histA1)
  /\ both (run wA histA1) (sw QuoteToBase 0 1000000000 0 1700000300) (sw QuoteToBase 2 5000000000000 50000000000 1700000400)
     = Some (969969710, 542054588290, 9290096506, 5000000000000)
  /\ 5000000000000 * (969969710 - 6) < (542054588290 + 6) * 9290096506
  /\ length (curve_points (w_config (run wA histA1))) = 3%nat.
Proof. split; [exists wA, histA1; split; [apply initialA|reflexivity]|]. vm_compute. repeat split; reflexivity. Qed.

(** A small and a nine times larger sale. *)
Example C103_case_sell :
  both (run wA histA1) (sw BaseToQuote 0 1000000000000 0 1700000300) (sw BaseToQuote 0 9000000000000 0 1700000300)
    = Some (1000000000000, 1766870463, 9000000000000, 14269950893)
  /\ 14269950893 * (1000000000000 - 6) < (1766870463 + 6) * 9000000000000.
Proof. vm_compute. repeat split; reflexivity. Qed.

Print Assumptions C103_larger_is_dearer.
Print Assumptions C103_no_bargain.
