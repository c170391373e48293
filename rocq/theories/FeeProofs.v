(** * Fee amounts and their split; bounds of the fee numerators. *)
From Coq Require Import ZArith List Bool Lia ZifyBool.
From Verif Require Import Base MathModel FeeModel Spec Lib.
Import ListNotations.
Open Scope Z_scope.
#[local] Arguments Z.pow : simpl never.

(** ** The split of a fee *)
Lemma parts_sum fee ref tr pr rf : 0 <= fee -> fee_parts fee ref tr pr rf ->
  tr + pr + rf = fee /\ 0 <= tr /\ 0 <= pr /\ 0 <= rf /\ (ref = false -> rf = 0).
Proof.
  unfold fee_parts. intros H (-> & -> & ->).
  assert (A : 0 <= fee * 20 / 100) by (apply div_nonneg; lia).
  assert (B : fee * 20 / 100 <= fee) by (apply Z.div_le_upper_bound; lia).
  set (p := fee * 20 / 100) in *. clearbody p.
  assert (C : 0 <= p * 20 / 100) by (apply div_nonneg; lia).
  assert (D : p * 20 / 100 <= p) by (apply Z.div_le_upper_bound; lia).
  destruct ref; repeat split; lia.
Qed.

Lemma split_fees_ok fee ref tr pr rf :
  split_fees fee ref = Ok (tr, pr, rf) -> fee_parts fee ref tr pr rf.
Proof.
  unfold split_fees, PROTOCOL_FEE_PERCENT, HOST_FEE_PERCENT. intros H.
  apply bind_ok in H. destruct H as (p & P & H). apply mul_div_cast_down in P. destruct P as (-> & _).
  apply bind_ok in H. destruct H as (t & T & H).
  apply bind_ok in H. destruct H as (r & R & H). minv.
  inversion H; subst; clear H. unfold fee_parts.
  destruct ref.
  - apply mul_div_cast_down in R. destruct R as (-> & _). auto.
  - minv. auto.
Qed.

Lemma fee_on_amount_ok num amount ref f :
  get_fee_on_amount num amount ref = Ok f ->
  exists fee, fee = cdiv (amount * num) FEE_DENOMINATOR /\ fee <= amount
    /\ foa_amount f = amount - fee
    /\ fee_parts fee ref (foa_trading f) (foa_protocol f) (foa_referral f).
Proof.
  unfold get_fee_on_amount, get_excluded_fee_amount. intros H.
  apply bind_ok in H. destruct H as ([excl fee] & P & H).
  apply bind_ok in P. destruct P as (fee' & F & P). apply mul_div_cast_up in F.
  destruct F as (F1 & _). apply bind_ok in P. destruct P as (x & X & P).
  apply ssub_ok in X. destruct X as (X1 & X2). inversion P; subst; clear P.
  set (fee := cdiv (amount * num) FEE_DENOMINATOR) in *.
  assert (S : split_fees fee ref = Ok (foa_trading f, foa_protocol f, foa_referral f)).
  { unfold split_fees. apply bind_ok in H. destruct H as (p & -> & H). cbn [bind].
    apply bind_ok in H. destruct H as (t & -> & H). cbn [bind].
    apply bind_ok in H. destruct H as (r & -> & H). cbn [bind].
    apply bind_ok in H. destruct H as (p' & -> & H). minv. reflexivity. }
  apply split_fees_ok in S. exists fee.
  apply bind_ok in H. destruct H as (p & _ & H).
  apply bind_ok in H. destruct H as (t & _ & H).
  apply bind_ok in H. destruct H as (r & _ & H).
  apply bind_ok in H. destruct H as (p' & _ & H). minv. simpl in *. auto.
Qed.

(** The gross amount computed from a net amount charges exactly the rounded-up fee. *)
Lemma included_fee_ok num excl incl fee :
  0 <= num -> 0 <= excl -> get_included_fee_amount num excl = Ok (incl, fee) ->
  num < FEE_DENOMINATOR /\ incl = excl + fee /\ 0 <= fee
  /\ fee = cdiv (incl * num) FEE_DENOMINATOR
  /\ incl = cdiv (excl * FEE_DENOMINATOR) (FEE_DENOMINATOR - num) /\ incl <= U64_MAX.
Proof.
  intros Hn Hx H. unfold get_included_fee_amount in H.
  apply bind_ok in H. destruct H as (d & D & H).
  apply bind_ok in H. destruct H as (i & I & H). apply mul_div_cast_up in I.
  destruct I as (-> & I1 & I2). minv. apply pair_inj in H. destruct H as (<- & <-).
  assert (0 < FEE_DENOMINATOR) by reflexivity.
  set (dd := FEE_DENOMINATOR - num) in *.
  assert (Hd : 0 < dd) by lia.
  set (i := cdiv (excl * FEE_DENOMINATOR) dd) in *.
  assert (U : excl * FEE_DENOMINATOR <= i * dd) by (apply cdiv_ub; lia).
  assert (V : i * dd < excl * FEE_DENOMINATOR + dd).
  { assert (i - 1 < i) as G by lia. unfold i at 2 in G. apply cdiv_gt in G; lia. }
  split; [lia|]. split; [lia|]. split; [lia|]. split; [|auto].
  assert (cdiv (i * num) FEE_DENOMINATOR <= i - excl) by (apply cdiv_le; [lia|]; unfold dd in *; lia).
  assert (i - excl - 1 < cdiv (i * num) FEE_DENOMINATOR) by (apply cdiv_gt; [lia|]; unfold dd in *; lia).
  lia.
Qed.

(** ** Numerators *)

Lemma mulq_nonneg a b r : 0 <= a -> 0 <= b -> mulq a b = Some r -> 0 <= r.
Proof.
  unfold mulq. intros Ha Hb H. destruct (a * b <=? U128_MAX); inversion H.
  apply div_nonneg; [nia|reflexivity].
Qed.

Lemma pow_bits_nonneg n : forall i e sq r x,
  0 <= sq -> 0 <= r -> pow_bits n i e sq r = Some x -> 0 <= x.
Proof.
  induction n; simpl; intros i e sq r x Hs Hr H.
  - inversion H; lia.
  - destruct (mulq sq sq) eqn:M; [|discriminate].
    apply mulq_nonneg in M; auto. unfold pow_step in H.
    destruct (Z.testbit e i).
    + destruct (mulq r z) eqn:M2; [|discriminate]. apply mulq_nonneg in M2; eauto.
    + eauto.
Qed.

Lemma pow_nonneg base e r : 0 <= base -> pow base e = Some r -> 0 <= r.
Proof.
  unfold pow. intros Hb H. destruct (e =? -2147483648); [discriminate|].
  destruct (e =? 0); [inversion H; unfold Q64; lia|].
  destruct (MAX_EXPONENTIAL <=? Z.abs e); [discriminate|].
  assert (UB : 0 <= U128_MAX / base).
  { destruct (Z.eq_dec base 0) as [->|]; [rewrite Zdiv_0_r; lia|].
    apply div_nonneg; [unfold U128_MAX; lia|lia]. }
  destruct (ONE_Q64 <=? base) eqn:C;
  match type of H with context [pow_step ?a ?b ?c ?d] => destruct (pow_step a b c d) eqn:S end;
  try discriminate; 
  (assert (0 <= z); [unfold pow_step in S; destruct (Z.testbit (Z.abs e) 0);
    [apply mulq_nonneg in S; auto; unfold ONE_Q64, Q64; lia
    |inversion S; unfold ONE_Q64, Q64; lia]|]);
  match type of H with context [pow_bits ?n ?b ?c ?d ?f] => destruct (pow_bits n b c d f) eqn:P end;
  try discriminate; apply pow_bits_nonneg in P; auto;
  destruct (z0 =? 0) eqn:Z0; try discriminate;
  match type of H with context [if ?b then _ else _] => destruct b end; inversion H; subst; auto;
  try (apply div_nonneg; unfold U128_MAX; lia).
Qed.

Lemma fee_in_period_nonneg cliff red period r :
  0 <= cliff -> get_fee_in_period cliff red period = Ok r -> 0 <= r.
Proof.
  unfold get_fee_in_period. intros Hc H. minv.
  apply pow_nonneg in E1; [|lia].
  apply div_nonneg; [nia|reflexivity].
Qed.

Lemma sched_by_period_nonneg b period r :
  0 <= bf_cliff b -> sched_by_period b period = Ok r -> 0 <= r.
Proof.
  unfold sched_by_period. intros Hc H. minvc; try lia.
  eapply fee_in_period_nonneg; eauto.
Qed.

Lemma sched_numerator_nonneg b cur act r :
  0 <= bf_cliff b -> sched_numerator b cur act = Ok r -> 0 <= r.
Proof.
  unfold sched_numerator. intros Hc H. destruct (bf_second b =? 0); [minv; lia|].
  minv. eapply sched_by_period_nonneg; eauto.
Qed.

Lemma rl_num_included_ge b input r :
  base_fee_typed b -> 0 <= input -> rl_num_included b input = Ok r -> 0 <= r.
Proof.
  intros (T1 & T2 & T3 & T4 & T5) Hi H. unfold u64ok, u16ok in *.
  unfold rl_num_included in H. destruct (input <=? bf_third b) eqn:C; [minv; lia|].
  cbv zeta in H.
  apply bind_ok in H. destruct H as (rest & R & H).
  apply bind_ok in H. destruct H as (u & X0 & H).
  apply bind_ok in H. destruct H as (m & M & H).
  apply bind_ok in H. destruct H as (i & I & H).
  apply bind_ok in H. destruct H as (fee & F & H). 
  apply mul_div_cast_up in H. destruct H as (-> & _ & _). minv.
  assert (I0 : 0 <= i).
  { unfold to_numerator in I. minv. apply div_nonneg; [unfold FEE_DENOMINATOR; nia|reflexivity]. }
  assert (M0 : 0 <= m).
  { unfold rl_max_index in M. rewrite I in M. minv.
    destruct (Z.eq_dec v0 0); [lia|]. apply div_nonneg; lia. }
  assert (A0 : 0 <= (input - bf_third b) / bf_third b) by (apply div_nonneg; lia).
  assert (R0 : 0 <= (input - bf_third b) mod bf_third b) by (apply Z.mod_pos_bound; lia).
  set (a := (input - bf_third b) / bf_third b) in *.
  set (rr := (input - bf_third b) mod bf_third b) in *. clearbody a rr.
  set (c := bf_cliff b) in *. set (x0 := bf_third b) in *.
  apply cdiv_nonneg; [|lia].
  apply Z.mul_nonneg_nonneg; [|unfold FEE_DENOMINATOR; lia].
  apply div_nonneg; [|reflexivity].
  assert (S1 : 0 <= i * a * (a + 1) / 2) by (apply div_nonneg; nia).
  assert (S2 : 0 <= i * m * (m + 1) / 2) by (apply div_nonneg; nia).
  unfold FEE_DENOMINATOR, MAX_FEE_NUMERATOR.
  destruct (a <? m) eqn:CM.
  - assert (0 <= c * a) by nia. assert (0 <= i * (a + 1)) by nia.
    assert (0 <= x0 * (c + c * a + i * a * (a + 1) / 2)) by (apply Z.mul_nonneg_nonneg; lia).
    assert (0 <= rr * (c + i * (a + 1))) by (apply Z.mul_nonneg_nonneg; lia). lia.
  - assert (0 <= c * m) by nia. assert (0 <= (a - m) * x0) by (apply Z.mul_nonneg_nonneg; lia).
    assert (0 <= x0 * (c + c * m + i * m * (m + 1) / 2)) by (apply Z.mul_nonneg_nonneg; lia). lia.
Qed.

Lemma rl_num_excluded_ge b ex r :
  rl_num_excluded b ex = Ok r -> base_fee_typed b -> 0 <= r.
Proof.
  intros H T. pose proof T as (T1 & T2 & T3 & T4 & T5). unfold u64ok in *.
  unfold rl_num_excluded in H.
  apply bind_ok in H. destruct H as (exr & X & H).
  destruct (ex <=? exr); [minv; lia|].
  apply bind_ok in H. destruct H as ([[ce ci] ov] & C & H).
  destruct (ex =? ce).
  - eapply rl_num_included_ge; [exact T| |exact H].
    unfold rl_checked_amounts in C. apply bind_ok in C. destruct C as (m & M & C).
    assert (M0 : 0 <= m).
    { unfold rl_max_index in M. minv. destruct (Z.eq_dec v0 0); [lia|].
      assert (0 <= v0).
      { unfold to_numerator in *. minv. apply div_nonneg; [|reflexivity].
        unfold u16ok in *; unfold FEE_DENOMINATOR; lia. }
      apply div_nonneg; lia. }
    cbv zeta in C. destruct ((m + 1) * bf_third b <=? U64_MAX).
    + minv. inversion C; subst. nia.
    + minv. inversion C; subst. unfold U64_MAX; lia.
  - apply bind_ok in H. destruct H as (incl & I & H).
    apply bind_ok in H. destruct H as (fee & F & H).
    apply bind_ok in H. destruct H as (n & N & H). minv. lia.
Qed.

Lemma base_num_included_nonneg b cur act d amount r :
  base_fee_typed b -> 0 <= amount -> base_num_included b cur act d amount = Ok r -> 0 <= r.
Proof.
  intros T Ha H. pose proof T as (T1 & _). unfold u64ok in T1. unfold base_num_included in H.
  destruct ((bf_mode b =? 0) || (bf_mode b =? 1)).
  - eapply sched_numerator_nonneg; [|eauto]; lia.
  - destruct (bf_mode b =? 2); [|discriminate].
    apply bind_ok in H. destruct H as (ap & _ & H). destruct ap.
    + eapply rl_num_included_ge; eauto.
    + minv. lia.
Qed.

Lemma base_num_excluded_nonneg b cur act d amount r :
  base_fee_typed b -> base_num_excluded b cur act d amount = Ok r -> 0 <= r.
Proof.
  intros T H. pose proof T as (T1 & _). unfold u64ok in T1. unfold base_num_excluded in H.
  destruct ((bf_mode b =? 0) || (bf_mode b =? 1)).
  - eapply sched_numerator_nonneg; [|eauto]; lia.
  - destruct (bf_mode b =? 2); [|discriminate].
    apply bind_ok in H. destruct H as (ap & _ & H). destruct ap.
    + eapply rl_num_excluded_ge; eauto.
    + minv. lia.
Qed.

Lemma min_base_nonneg b r : base_fee_typed b -> min_base_fee_numerator b = Ok r -> 0 <= r.
Proof.
  intros (T1 & _) H. unfold u64ok in T1. unfold min_base_fee_numerator in H.
  destruct ((bf_mode b =? 0) || (bf_mode b =? 1)).
  - eapply sched_by_period_nonneg; [|exact H]; lia.
  - destruct (bf_mode b =? 2); minv. lia.
Qed.

Lemma variable_nonneg df vt v :
  dyn_typed df -> variable_fee_numerator df vt = Ok v -> 0 <= v.
Proof.
  intros (T1 & T2 & T3 & T4 & _) H. unfold u32ok, u16ok in *. unfold variable_fee_numerator in H.
  destruct (negb (dyn_enabled df)); minv; [lia|].
  apply div_nonneg; [|reflexivity].
  assert (0 <= vt_va vt * df_bin_step df * (vt_va vt * df_bin_step df) * df_vfc df).
  { apply Z.mul_nonneg_nonneg; [apply Z.square_nonneg|lia]. }
  lia.
Qed.

Lemma total_num_bounds df b vt n :
  dyn_typed df -> 0 <= b -> total_fee_numerator df b vt = Ok n ->
  exists v, variable_fee_numerator df vt = Ok v /\ n = Z.min MAX_FEE_NUMERATOR (b + v)
    /\ 0 <= v /\ 0 <= n <= MAX_FEE_NUMERATOR.
Proof.
  intros T Hb H. unfold total_fee_numerator in H.
  apply bind_ok in H. destruct H as (v & V & H). exists v. split; auto.
  apply variable_nonneg in V; auto. minv.
  unfold MAX_FEE_NUMERATOR in *.
  destruct (990000000 <? v + b) eqn:C; lia.
Qed.

(** ** The exponential schedule never exceeds the cliff *)
Lemma mulq_le a b r : 0 <= a -> 0 <= b <= Q64 -> mulq a b = Some r -> r <= a.
Proof.
  unfold mulq. intros Ha Hb H. destruct (a * b <=? U128_MAX); inversion H.
  apply Z.div_le_upper_bound; [reflexivity|]. unfold Q64 in *. nia.
Qed.

Lemma pow_bits_le n : forall i e sq r x,
  0 <= sq <= Q64 -> 0 <= r -> pow_bits n i e sq r = Some x -> x <= r.
Proof.
  induction n; simpl; intros i e sq r x Hs Hr H.
  - inversion H; lia.
  - destruct (mulq sq sq) as [z|] eqn:M; [|discriminate].
    assert (0 <= z) by (apply mulq_nonneg in M; lia).
    assert (z <= sq) by (apply mulq_le in M; lia).
    unfold pow_step in H.
    destruct (Z.testbit e i).
    + destruct (mulq r z) as [y|] eqn:M2; [|discriminate].
      assert (0 <= y) by (apply mulq_nonneg in M2; lia).
      assert (y <= r) by (apply mulq_le in M2; lia).
      apply IHn in H; lia.
    + apply IHn in H; lia.
Qed.

Lemma pow_le_one base e r : 0 <= base < ONE_Q64 -> 0 <= e -> pow base e = Some r -> r <= ONE_Q64.
Proof.
  unfold pow. intros Hb He H. destruct (e =? -2147483648); [discriminate|].
  destruct (e =? 0); [inversion H; unfold ONE_Q64; lia|].
  destruct (MAX_EXPONENTIAL <=? Z.abs e); [discriminate|].
  destruct (ONE_Q64 <=? base) eqn:C; [lia|].
  destruct (e <? 0) eqn:Ce; [lia|].
  destruct (pow_step (Z.abs e) 0 base ONE_Q64) as [z|] eqn:S; [|discriminate].
  assert (0 <= z <= ONE_Q64).
  { unfold pow_step in S. destruct (Z.testbit (Z.abs e) 0).
    - assert (0 <= z) by (apply mulq_nonneg in S; unfold ONE_Q64, Q64 in *; lia).
      apply mulq_le in S; unfold ONE_Q64, Q64 in *; lia.
    - inversion S. unfold ONE_Q64, Q64. lia. }
  destruct (pow_bits 18 1 (Z.abs e) base z) as [y|] eqn:P; [|discriminate].
  apply pow_bits_le in P; [|unfold ONE_Q64 in *; lia|lia].
  simpl negb in H. destruct (y =? 0); [discriminate|]. inversion H; subst. lia.
Qed.

Lemma fee_in_period_le cliff red period r :
  0 <= cliff -> 0 <= red -> 0 <= period -> (red = 0 -> period = 0) ->
  get_fee_in_period cliff red period = Ok r -> r <= cliff.
Proof.
  unfold get_fee_in_period. intros Hc Hr Hp Hz H.
  apply bind_ok in H. destruct H as (bps & B & H).
  apply bind_ok in H. destruct H as (base & B2 & H).
  apply bind_ok in H. destruct H as (res & R & H). minv.
  assert (0 <= red * Q64 / MAX_BASIS_POINT) by (apply div_nonneg; [unfold Q64; lia|reflexivity]).
  assert (res <= ONE_Q64 /\ 0 <= res).
  { split; [|eapply pow_nonneg; [|exact R]; lia].
    destruct (Z.eq_dec red 0) as [Z0|Z0].
    - rewrite (Hz Z0) in R. unfold pow in R. simpl in R. inversion R. unfold ONE_Q64. lia.
    - assert (1 <= red * Q64 / MAX_BASIS_POINT).
      { apply div_ge; [reflexivity|]. unfold MAX_BASIS_POINT, Q64. lia. }
      apply pow_le_one in R; auto; lia. }
  apply Z.div_le_upper_bound; [reflexivity|]. unfold ONE_Q64, Q64 in *. nia.
Qed.

(** ** Summary of the fee parameters of an accepted config *)
Record fees_ok (pf : pool_fees) : Prop := {
  fk_base : base_fee_typed (pf_base pf);
  fk_dyn : dyn_typed (pf_dyn pf);
  fk_cliff : MIN_FEE_NUMERATOR <= bf_cliff (pf_base pf) <= MAX_FEE_NUMERATOR;
  fk_min : exists mn, min_base_fee_numerator (pf_base pf) = Ok mn
           /\ MIN_FEE_NUMERATOR <= mn <= bf_cliff (pf_base pf);
  fk_mode : bf_mode (pf_base pf) = 0 \/ bf_mode (pf_base pf) = 1 \/ bf_mode (pf_base pf) = 2
}.

Lemma sched_min_le b mn :
  base_fee_typed b -> sched_validate b = Ok tt -> sched_min b = Ok mn ->
  MIN_FEE_NUMERATOR <= mn <= bf_cliff b /\ bf_cliff b <= MAX_FEE_NUMERATOR.
Proof.
  intros (T1 & T2 & T3 & T4 & T5) V H. unfold u64ok, u16ok in *. unfold sched_validate in V.
  rewrite H in V. apply bind_ok in V. destruct V as (u & A & V). cbn [bind] in V. minv.
  unfold MIN_FEE_NUMERATOR, MAX_FEE_NUMERATOR in *. split; [|lia]. split; [lia|].
  unfold sched_min, sched_by_period in H. rewrite Z.min_id in H.
  destruct (bf_mode b =? 0); [minv; nia|].
  destruct (bf_mode b =? 1); [|discriminate].
  apply bind_ok in H. destruct H as (p & P & H).
  destruct (bf_first b <=? U16_MAX); [|discriminate]. minv.
  eapply fee_in_period_le; [| | | |exact H]; try lia.
  destruct (negb (bf_second b =? 0) || negb (bf_first b =? 0) || negb (bf_third b =? 0)) eqn:C;
    minv; lia.
Qed.

Lemma base_fee_validate_ok b df collect act :
  base_fee_typed b -> dyn_typed df -> base_fee_validate b collect act = Ok tt ->
  fees_ok (mkPoolFees b df).
Proof.
  intros T TD V. unfold base_fee_validate in V.
  destruct ((bf_mode b =? 0) || (bf_mode b =? 1)) eqn:C.
  - pose proof V as V'. unfold sched_validate in V'.
    apply bind_ok in V'. destruct V' as (u & A & V').
    apply bind_ok in V'. destruct V' as (mn & M & V').
    pose proof (sched_min_le b mn T V M) as (B1 & B2).
    constructor; simpl; auto; try lia.
    exists mn. split; [|lia]. unfold min_base_fee_numerator. rewrite C. auto.
  - destruct (bf_mode b =? 2) eqn:C2; [|discriminate].
    unfold rl_validate in V. apply bind_ok in V. destruct V as (cm & _ & V).
    apply bind_ok in V. destruct V as (u & _ & V).
    apply bind_ok in V. destruct V as (u2 & R & V). apply require_ok in R.
    constructor; simpl; auto; try lia.
    exists (bf_cliff b). split; [|lia]. unfold min_base_fee_numerator. rewrite C, C2. auto.
Qed.
