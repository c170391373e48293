(** * C77: rounding does not pile up in the reserve; the surplus is rounding only. *)
From Coq Require Import ZArith QArith List Bool Lia ZifyBool Lqa.
From Verif Require Import Base MathModel CurveModel FeeModel ConfigModel PoolModel TxModel
  SystemModel Fixtures Spec Lib CurveProofs CurveLoops Potential CalcProofs ConfigProofs FeeProofs
  SwapProofs InvProofs InvOps InvReach FixturesReach Effects Frame PropSwap Steps Walks PropTrade PropFair.
Import ListNotations.
Open Scope Z_scope.
#[local] Arguments Z.pow : simpl never.
#[local] Arguments Z.testbit : simpl never.

(** ** Specification *)

(** The number of swaps of a history that succeed. *)
Fixpoint trades (w : world) (ops : list op) : Z :=
  match ops with
  | [] => 0
  | o :: rest =>
      (match o with OSwap _ => if is_ok (exec w o) then 1 else 0 | _ => 0 end) + trades (step w o) rest
  end.

(** What rounding may add to the reserve in one trade: the number of curve points plus two. *)
Definition dust (c : config) : Z := Z.of_nat (length (curve_points c)) + 2.

(** ** Proofs *)
Lemma exact_le_ceil low curve x : curve_wf low curve ->
  quote_area low curve x <= quote_area_ceil low curve x * 2 ^ 128.
Proof.
  revert low. induction curve as [|(p, l) rest IH]; intros low W; cbn [quote_area quote_area_ceil]; [lia|].
  destruct W as (_ & _ & W). specialize (IH _ W). set (T := 2 ^ 128) in *.
  assert (0 < T) by reflexivity. clearbody T. unfold ceil_div.
  set (a := l * (covered low p x - low)). clearbody a.
  assert (- a / T * T <= - a).
  { rewrite Z.mul_comm. apply Z.mul_div_le. auto. }
  lia.
Qed.

Lemma exact_quote_le c x n : curve_ok c (curve_points c) ->
  quote_area_ceil (c_start c) (curve_points c) x <= n -> (exact_quote c x <= inject_Z n)%Q.
Proof.
  intros K H. pose proof (exact_le_ceil _ _ x (co_wf _ _ K)) as E. unfold exact_quote.
  apply Qle_shift_div_r; [reflexivity|]. rewrite <- inject_Z_mult. apply inj_le.
  apply Z.le_trans with (1 := E). apply Z.mul_le_mono_nonneg_r; [discriminate|exact H].
Qed.

Lemma trades_nonneg ops : forall w, 0 <= trades w ops.
Proof.
  induction ops as [|o rest IH]; intros w; cbn [trades]; [lia|].
  specialize (IH (step w o)). destruct o; try lia. destruct (is_ok _); lia.
Qed.

Lemma drift ops : forall w, reachable w ->
  let w' := run w ops in
  (inject_Z (p_quote (w_pool w') - p_quote (w_pool w))
   <= exact_quote (w_config w) (p_price (w_pool w')) - exact_quote (w_config w) (p_price (w_pool w))
      + inject_Z (trades w ops * dust (w_config w)))%Q.
Proof.
  induction ops as [|o rest IH]; intros w R w'.
  - subst w'. change (run w []) with w. cbn [trades]. rewrite Z.sub_diag, Z.mul_0_l.
    change (inject_Z 0) with 0%Q. lra.
  - subst w'. change (run w (o :: rest)) with (run (step w o) rest). cbn [trades].
    destruct (exec w o) as [w1|e] eqn:E.
    + assert (S : step w o = w1) by (unfold step; rewrite E; reflexivity).
      pose proof (reachable_exec _ _ _ R E) as R1. specialize (IH w1 R1). cbv zeta in IH.
      destruct (exec_frame _ _ _ (reachable_inv _ R) E) as (F & M).
      assert (C : w_config w1 = w_config w) by apply F. rewrite C in IH. rewrite S.
      set (w2 := run w1 rest) in *. clearbody w2. set (n := trades w1 rest) in *. clearbody n.
      destruct o; cbn [is_ok];
      try (pose proof (sk_price _ _ M) as MP; pose proof (sk_quote _ _ M) as MQ; rewrite MP, MQ in IH;
           rewrite Z.add_0_l; exact IH).
      pose proof (C65_fair_execution _ _ _ R E) as G. cbv zeta in G. fold (dust (w_config w)) in G.
      rewrite Z.mul_add_distr_r, Z.mul_1_l, inject_Z_plus.
      assert (G1 : (inject_Z (p_quote (w_pool w1) - p_quote (w_pool w))
        <= exact_quote (w_config w) (p_price (w_pool w1)) - exact_quote (w_config w) (p_price (w_pool w)) + inject_Z (dust (w_config w)))%Q).
      { destruct (sa_dir a); destruct G as (G & _); [|lra].
        replace (p_quote (w_pool w1) - p_quote (w_pool w)) with (- (p_quote (w_pool w) - p_quote (w_pool w1))) by lia.
        rewrite inject_Z_opp. lra. }
      replace (p_quote (w_pool w2) - p_quote (w_pool w)) with
        ((p_quote (w_pool w2) - p_quote (w_pool w1)) + (p_quote (w_pool w1) - p_quote (w_pool w))) by lia.
      rewrite inject_Z_plus. lra.
    + assert (S : step w o = w) by (unfold step; rewrite E; reflexivity). rewrite S.
      replace (match o with OSwap _ => if is_ok (Err e) then 1 else 0 | _ => 0 end) with 0 by (destruct o; reflexivity).
      rewrite Z.add_0_l. apply IH, R.
Qed.

Lemma initial_market w0 : initial w0 ->
  p_quote (w_pool w0) = 0 /\ p_price (w_pool w0) = c_start (w_config w0).
Proof.
  intros (c & key & creator & payer & t & slot & time & ad & ops & _ & _ & _ & H).
  unfold initialize_pool in H. minv. split; reflexivity.
Qed.

(** ** C77 *)

(** At every point of every history the quote reserve is the exact quote amount of the curve up to
    the current price, plus at most [dust] units for every trade made so far. *)
Theorem C77_reserve_tracks_curve : forall w0 ops, initial w0 ->
  let w := run w0 ops in
  let c := w_config w0 in
  (exact_quote c (p_price (w_pool w)) <= inject_Z (p_quote (w_pool w))
   /\ inject_Z (p_quote (w_pool w))
        <= exact_quote c (p_price (w_pool w)) + inject_Z (trades w0 ops * dust c))%Q.
Proof.
  intros w0 ops I w c.
  assert (R0 : reachable w0) by (exists w0, []; split; auto).
  pose proof (reachable_run w0 ops R0) as R. fold w in R. pose proof (reachable_inv _ R) as V.
  pose proof (drift ops w0 R0) as D. cbv zeta in D. fold w c in D.
  assert (C : w_config w = c) by apply (fr_config _ _ (run_frame ops w0 (reachable_inv _ R0))).
  pose proof (created_cfg_ok _ (iv_created _ V)) as K. rewrite C in K. pose proof (ok_curve _ K) as CK.
  split.
  - apply exact_quote_le; auto. rewrite <- C. apply (iv_area _ V).
  - destruct (initial_market _ I) as (Q0 & P0). rewrite Q0, P0, Z.sub_0_r in D. fold c in D.
    assert (Z0 : (exact_quote c (c_start c) == 0)%Q).
    { unfold exact_quote. rewrite quote_area_below; [reflexivity|apply (co_wf _ _ CK)|lia]. }
    lra.
Qed.

(** Whatever a completed pool holds above its threshold - the surplus that partner, creator and
    protocol share - is rounding: at most [dust] units per trade. *)
Theorem C77_surplus_is_rounding : forall w0 ops, initial w0 ->
  let w := run w0 ops in
  let c := w_config w0 in
  p_quote (w_pool w) - c_threshold c <= trades w0 ops * dust c.
Proof.
  intros w0 ops I w c. destruct (C77_reserve_tracks_curve w0 ops I) as (_ & U). fold w c in U.
  assert (R0 : reachable w0) by (exists w0, []; split; auto).
  pose proof (reachable_run w0 ops R0) as R. fold w in R. pose proof (reachable_inv _ R) as V.
  assert (C : w_config w = c) by apply (fr_config _ _ (run_frame ops w0 (reachable_inv _ R0))).
  pose proof (created_cfg_ok _ (iv_created _ V)) as K. rewrite C in K. pose proof (ok_curve _ K) as CK.
  assert (T : (exact_quote c (p_price (w_pool w)) <= inject_Z (c_threshold c))%Q).
  { apply Qle_trans with (exact_quote c (c_mig_price c)).
    - pose proof (iv_price _ V) as P. rewrite C in P. unfold exact_quote.
      apply Qmult_le_compat_r; [|discriminate]. apply inj_le.
      apply quote_area_mono; [apply (co_wf _ _ CK)|lia].
    - apply exact_quote_le; auto. rewrite (ok_area _ K). lia. }
  assert (G : (inject_Z (p_quote (w_pool w)) <= inject_Z (c_threshold c + trades w0 ops * dust c))%Q).
  { rewrite inject_Z_plus. lra. }
  rewrite <- Zle_Qle in G. lia.
Qed.


(** Six trades complete pool A and leave a surplus of one unit. *)
Example C77_case : initial wA
  /\ let w := run wA (histA1 ++ histA2) in
     trades wA (histA1 ++ histA2) = 6 /\ dust cfgA = 5
     /\ p_progress (w_pool w) = 1 /\ p_quote (w_pool w) - c_threshold cfgA = 1.
Proof.
  split; [apply initialA|]. vm_compute. repeat split; reflexivity.
Qed.

Print Assumptions C77_reserve_tracks_curve.
Print Assumptions C77_surplus_is_rounding.
