(** * The rate limiter: C31. *)
From Coq Require Import ZArith QArith List Bool Lia ZifyBool Lqa.
From Verif Require Import Base MathModel CurveModel FeeModel ConfigModel PoolModel TxModel
  SystemModel Spec Lib CurveProofs CurveLoops Potential CalcProofs ConfigProofs FeeProofs
  SwapProofs PropMath PropSched Fixtures.
Import ListNotations.
Open Scope Z_scope.
#[local] Arguments Z.pow : simpl never.
#[local] Arguments Z.testbit : simpl never.

(** ** Specification

    The first [x0] units of a buy pay the cliff rate [c]; every further [x0] units pay [i] more,
    up to 99%. [progressive c i x0 n] is the exact sum over the [n] units of a buy, in units of
    1/1e9 of a token unit. *)
Definition marginal (c i k : Z) : Z := Z.min (c + i * k) 990000000.
Fixpoint progressive (c i x0 : Z) (n : nat) : Z :=
  match n with
  | O => 0
  | S u => progressive c i x0 u + marginal c i (Z.of_nat u / x0)
  end.

(** ** Closed forms *)
Fixpoint chunks (c i : Z) (k : nat) : Z :=
  match k with O => 0 | S j => chunks c i j + marginal c i (Z.of_nat j) end.

Lemma progressive_chunks c i x0 n : 0 < x0 ->
  progressive c i x0 n = x0 * chunks c i (Z.to_nat (Z.of_nat n / x0))
                         + (Z.of_nat n mod x0) * marginal c i (Z.of_nat n / x0).
Proof.
  intros X. induction n.
  - simpl progressive. change (Z.of_nat 0) with 0. rewrite Zdiv_0_l, Zmod_0_l. simpl. lia.
  - cbn [progressive]. rewrite IHn. set (u := Z.of_nat n) in *.
    replace (Z.of_nat (S n)) with (u + 1) by (unfold u; lia).
    assert (U : 0 <= u) by (unfold u; lia). clearbody u. clear IHn n.
    pose proof (Z.div_mod u x0 ltac:(lia)) as D. pose proof (Z.mod_pos_bound u x0 X) as M.
    assert (K : 0 <= u / x0) by (apply Z.div_pos; lia).
    set (k := u / x0) in *. set (r := u mod x0) in *. clearbody k r.
    destruct (Z.eq_dec (r + 1) x0) as [E|E].
    + assert (Q : (u + 1) / x0 = k + 1).
      { symmetry. apply Z.div_unique with (r := 0); lia. }
      assert (R : (u + 1) mod x0 = 0).
      { symmetry. apply Z.mod_unique with (q := k + 1); lia. }
      rewrite Q, R. replace (Z.to_nat (k + 1)) with (S (Z.to_nat k)) by lia. cbn [chunks].
      rewrite Z2Nat.id by lia. replace (r) with (x0 - 1) by lia. ring.
    + assert (Q : (u + 1) / x0 = k).
      { symmetry. apply Z.div_unique with (r := r + 1); lia. }
      assert (R : (u + 1) mod x0 = r + 1).
      { symmetry. apply Z.mod_unique with (q := k); lia. }
      rewrite Q, R. ring.
Qed.

Lemma chunks_low c i k : 0 <= i -> (k = O \/ c + i * Z.of_nat (k - 1) <= 990000000) ->
  2 * chunks c i k = 2 * c * Z.of_nat k + i * (Z.of_nat k * (Z.of_nat k - 1)).
Proof.
  intros I. induction k; intros H.
  - simpl. lia.
  - destruct H as [H|H]; [discriminate|]. replace (S k - 1)%nat with k in H by lia. cbn [chunks].
    rewrite Z.mul_add_distr_l. rewrite IHk.
    + unfold marginal. rewrite Z.min_l by lia. replace (Z.of_nat (S k)) with (Z.of_nat k + 1) by lia. ring.
    + destruct k; [left; reflexivity|right]. 
      assert (i * Z.of_nat (S k - 1) <= i * Z.of_nat (S k)) by (apply Z.mul_le_mono_nonneg_l; lia). lia.
Qed.

Lemma chunks_high c i m k : (forall j, m <= j -> 990000000 <= c + i * j) -> 0 <= m -> m <= Z.of_nat k ->
  chunks c i k = chunks c i (Z.to_nat m) + (Z.of_nat k - m) * 990000000.
Proof.
  intros H M. induction k; intros K.
  - assert (m = 0) by lia. subst m. simpl. lia.
  - destruct (Z.eq_dec m (Z.of_nat (S k))) as [->|N].
    + rewrite Nat2Z.id. lia.
    + cbn [chunks]. rewrite IHk by lia. unfold marginal. rewrite Z.min_r by (apply H; lia). lia.
Qed.

Lemma even_prod a : exists h, a * (a + 1) = 2 * h.
Proof. destruct (Z.Even_or_Odd a) as [[b ->]|[b ->]]; [exists (b * (2*b+1))|exists ((2*b+1)*(b+1))]; ring. Qed.

(** ** What the program computes *)
Definition limited (b : base_fee) : Prop :=
  2500000 <= bf_cliff b <= 990000000 /\ 1 <= bf_first b <= 9999 /\ 1 <= bf_second b
  /\ 1 <= bf_third b <= U64_MAX.

Lemma limiter_valid b collect act : base_fee_typed b -> bf_mode b = 2 ->
  base_fee_validate b collect act = Ok tt ->
  2500000 <= bf_cliff b <= 990000000
  /\ ((bf_first b = 0 /\ bf_second b = 0 /\ bf_third b = 0) \/ limited b).
Proof.
  intros (T1 & T2 & T3 & T4 & T5) M V. unfold u64ok, u16ok in *. unfold base_fee_validate in V.
  rewrite M in V. change ((2 =? 0) || (2 =? 1)) with false in V. change (2 =? 2) with true in V. cbv iota in V.
  unfold rl_validate in V.
  apply bind_ok in V. destruct V as (cm & _ & V). apply bind_ok in V. destruct V as (u & _ & V).
  apply bind_ok in V. destruct V as (u1 & A & V). apply require_ok in A.
  unfold MIN_FEE_NUMERATOR, MAX_FEE_NUMERATOR in A.
  assert (C : 2500000 <= bf_cliff b <= 990000000) by lia. split; [exact C|].
  unfold rl_is_zero in V. destruct ((bf_third b =? 0) && (bf_second b =? 0) && (bf_first b =? 0)) eqn:E.
  - left. lia.
  - right. apply bind_ok in V. destruct V as (u2 & NZ & V). apply require_ok in NZ. unfold rl_is_non_zero in NZ.
    apply bind_ok in V. destruct V as (u3 & _ & V). apply bind_ok in V. destruct V as (inc & I & V).
    apply bind_ok in V. destruct V as (u4 & IL & V). apply require_ok in IL.
    unfold to_numerator in I. apply bind_ok in I. destruct I as (x & X & I). apply smul_ok in X. destruct X as (-> & _).
    apply bind_ok in I. destruct I as (y & Y & I). apply sdiv_ok in Y. destruct Y as (-> & _). apply scast_ok in I.
    destruct I as (-> & _). unfold MAX_BASIS_POINT, FEE_DENOMINATOR in IL.
    replace (bf_first b * 1000000000) with (bf_first b * 100000 * 10000) in IL by ring.
    rewrite Z.div_mul in IL by lia. unfold limited. lia.
Qed.

Lemma inc_numerator b : 0 <= bf_first b <= 65535 ->
  to_numerator (bf_first b) FEE_DENOMINATOR = Ok (bf_first b * 100000).
Proof.
  intros H. unfold to_numerator, FEE_DENOMINATOR, MAX_BASIS_POINT.
  rewrite smul_intro by (unfold U128_MAX; lia). cbn [bind]. rewrite sdiv_intro by lia. cbn [bind].
  replace (bf_first b * 1000000000) with (bf_first b * 100000 * 10000) by ring.
  rewrite Z.div_mul by lia. apply scast_intro. unfold U64_MAX. lia.
Qed.

Lemma progressive_bounds c i x0 n : c <= 990000000 -> 0 <= i -> 0 < x0 ->
  c * Z.of_nat n <= progressive c i x0 n <= 990000000 * Z.of_nat n.
Proof.
  intros C I X. induction n.
  - simpl. lia.
  - cbn [progressive]. unfold marginal. assert (0 <= Z.of_nat n / x0) by (apply Z.div_pos; lia).
    assert (0 <= i * (Z.of_nat n / x0)) by (apply Z.mul_nonneg_nonneg; lia). lia.
Qed.

(** The whole fee, in token units, of a buy of [n] units. *)
Definition progressive_fee (b : base_fee) (n : Z) : Z :=
  cdiv (progressive (bf_cliff b) (bf_first b * 100000) (bf_third b) (Z.to_nat n)) 1000000000.

Lemma max_index b : limited b -> exists m, rl_max_index b = Ok m /\ 0 <= m <= 9900
  /\ bf_cliff b + bf_first b * 100000 * m <= 990000000
  /\ (forall j, m + 1 <= j -> 990000000 <= bf_cliff b + bf_first b * 100000 * j).
Proof.
  intros (C & F & _). unfold rl_max_index. rewrite ssub_intro by (unfold MAX_FEE_NUMERATOR; lia). cbn [bind].
  rewrite inc_numerator by lia. cbn [bind]. rewrite sdiv_intro by lia. eexists. split; [reflexivity|].
  unfold MAX_FEE_NUMERATOR. set (i := bf_first b * 100000). assert (I : 100000 <= i) by (unfold i; lia).
  clearbody i. set (m := (990000000 - bf_cliff b) / i).
  assert (M1 : i * m <= 990000000 - bf_cliff b) by (apply Z.mul_div_le; lia).
  assert (M2 : 990000000 - bf_cliff b < i * (m + 1)).
  { pose proof (Z.mul_succ_div_gt (990000000 - bf_cliff b) i). fold m in H. lia. }
  assert (M0 : 0 <= m) by (apply Z.div_pos; lia). clearbody m.
  assert (100000 * m <= i * m) by (apply Z.mul_le_mono_nonneg_r; lia).
  split; [lia|]. split; [lia|]. intros j J.
  assert (i * (m + 1) <= i * j) by (apply Z.mul_le_mono_nonneg_l; lia). lia.
Qed.

Lemma rl_included_expr b n : limited b -> 0 <= n ->
  rl_num_included b n =
    if n <=? bf_third b then Ok (bf_cliff b)
    else do fee <- scast U64_MAX (progressive_fee b n) ;;
         safe_mul_div_cast_u64 U64_MAX fee FEE_DENOMINATOR n Up.
Proof.
  intros L N. pose proof (max_index b L) as (m & MI & M0 & M1 & M2).
  destruct L as (C & F & _ & X). unfold rl_num_included.
  destruct (n <=? bf_third b) eqn:E; [reflexivity|]. cbv zeta.
  rewrite ssub_intro by lia. cbn [bind]. rewrite require_true by lia. cbn [bind]. rewrite MI. cbn [bind].
  rewrite inc_numerator by lia. cbn [bind]. unfold progressive_fee.
  set (T := progressive _ _ _ _). set (V := if _ <? m then _ else _).
  assert (VT : V = T).
  { unfold V, T. rewrite progressive_chunks by lia. rewrite Z2Nat.id by lia.
    set (c := bf_cliff b) in *. set (i := bf_first b * 100000) in *. assert (I : 0 <= i) by (unfold i; lia).
    set (x0 := bf_third b) in *. clearbody c i x0. clear V T MI F b.
    pose proof (Z.div_mod (n - x0) x0 ltac:(lia)) as D. pose proof (Z.mod_pos_bound (n - x0) x0 ltac:(lia)) as R.
    assert (A : 0 <= (n - x0) / x0) by (apply Z.div_pos; lia).
    set (a := (n - x0) / x0) in *. set (r := (n - x0) mod x0) in *. clearbody a r.
    assert (Q1 : n / x0 = a + 1). { symmetry. apply Z.div_unique with (r := r); lia. }
    assert (Q2 : n mod x0 = r). { symmetry. apply Z.mod_unique with (q := a + 1); lia. }
    rewrite Q1, Q2. destruct (a <? m) eqn:AM.
    - assert (LE : c + i * (a + 1) <= 990000000).
      { assert (i * (a + 1) <= i * m) by (apply Z.mul_le_mono_nonneg_l; lia). lia. }
      unfold marginal. rewrite Z.min_l by exact LE.
      pose proof (chunks_low c i (Z.to_nat (a + 1)) I) as CL.
      rewrite Nat2Z.inj_sub, Z2Nat.id in CL by lia.
      specialize (CL ltac:(right; lia)).
      destruct (even_prod a) as (h & Hh).
      replace (i * a * (a + 1)) with (i * h * 2) by (rewrite <- (Z.mul_assoc i _ (_ + 1)), Hh; ring).
      rewrite Z.div_mul by lia.
      replace ((a + 1) * (a + 1 - 1)) with (2 * h) in CL by (rewrite <- Hh; ring).
      assert (CH : chunks c i (Z.to_nat (a + 1)) = c + c * a + i * h) by lia.
      rewrite CH. reflexivity.
    - rewrite (chunks_high c i (m + 1)) by (exact M2 || lia). rewrite Z2Nat.id by lia.
      unfold marginal. rewrite Z.min_r by (apply M2; lia).
      pose proof (chunks_low c i (Z.to_nat (m + 1)) I) as CL.
      rewrite Nat2Z.inj_sub, Z2Nat.id in CL by lia.
      specialize (CL ltac:(right; lia)).
      destruct (even_prod m) as (h & Hh).
      replace (i * m * (m + 1)) with (i * h * 2) by (rewrite <- (Z.mul_assoc i _ (_ + 1)), Hh; ring).
      rewrite Z.div_mul by lia.
      replace ((m + 1) * (m + 1 - 1)) with (2 * h) in CL by (rewrite <- Hh; ring).
      assert (CH : chunks c i (Z.to_nat (m + 1)) = c + c * m + i * h) by lia.
      rewrite CH. unfold MAX_FEE_NUMERATOR. ring. }
  clearbody V. subst V. reflexivity.
Qed.

Lemma progressive_fee_bounds b n : limited b -> 0 <= n ->
  bf_cliff b * n <= progressive_fee b n * 1000000000 /\ 0 <= progressive_fee b n <= n.
Proof.
  intros (C & F & _ & X) N. unfold progressive_fee.
  pose proof (progressive_bounds (bf_cliff b) (bf_first b * 100000) (bf_third b) (Z.to_nat n)
                ltac:(lia) ltac:(lia) ltac:(lia)) as PB. rewrite Z2Nat.id in PB by lia.
  set (T := progressive _ _ _ _) in *. clearbody T.
  assert (C0 : 0 <= bf_cliff b * n) by (apply Z.mul_nonneg_nonneg; lia).
  split; [etransitivity; [apply (proj1 PB)|apply cdiv_ub; lia]|].
  split; [apply cdiv_nonneg; lia|apply cdiv_le; lia].
Qed.

Lemma rl_included_inv b n v : limited b -> 0 <= n -> rl_num_included b n = Ok v ->
  v = (if n <=? bf_third b then bf_cliff b else cdiv (progressive_fee b n * 1000000000) n)
  /\ bf_cliff b <= v.
Proof.
  intros L N H. rewrite rl_included_expr in H by assumption.
  destruct (n <=? bf_third b) eqn:E; [apply Ok_inj in H; lia|].
  apply bind_ok in H. destruct H as (fee & F & H). apply scast_ok in F. destruct F as (-> & _).
  apply mul_div_cast_up in H. destruct H as (-> & _). split; [reflexivity|].
  destruct (progressive_fee_bounds b n L N) as (B1 & B2). unfold limited in L.
  assert (bf_cliff b - 1 < cdiv (progressive_fee b n * FEE_DENOMINATOR) n); [|lia].
  apply cdiv_gt; [lia|]. unfold FEE_DENOMINATOR. lia.
Qed.

Lemma rl_included_value b n : limited b -> 0 <= n <= U64_MAX ->
  rl_num_included b n = Ok (if n <=? bf_third b then bf_cliff b
                            else cdiv (progressive_fee b n * 1000000000) n).
Proof.
  intros L N. rewrite rl_included_expr by (assumption || lia).
  destruct (n <=? bf_third b) eqn:E; [reflexivity|].
  destruct (progressive_fee_bounds b n L ltac:(lia)) as (B1 & B2). unfold limited in L.
  rewrite scast_intro by lia. cbn [bind]. unfold FEE_DENOMINATOR.
  apply mul_div_cast_up_intro; try lia; [unfold U128_MAX, U64_MAX in *; lia|].
  apply cdiv_le; unfold U64_MAX in *; lia.
Qed.

Lemma rl_excluded_num_ge b ex v : limited b -> rl_num_excluded b ex = Ok v -> bf_cliff b <= v.
Proof.
  intros L H. unfold rl_num_excluded in H.
  apply bind_ok in H. destruct H as (exr & X & H). destruct (ex <=? exr); [apply Ok_inj in H; lia|].
  apply bind_ok in H. destruct H as ([[ce ci] ov] & C & H). destruct (ex =? ce).
  - unfold rl_checked_amounts in C. apply bind_ok in C. destruct C as (m & M & C). cbv zeta in C.
    destruct (max_index b L) as (m' & M' & M0 & _). rewrite M' in M. apply Ok_inj in M. subst m'.
    assert (0 <= ci).
    { destruct ((m + 1) * bf_third b <=? U64_MAX); apply bind_ok in C; destruct C as (o & _ & C);
      apply Ok_inj in C; inversion C; [|unfold U64_MAX; lia].
      unfold limited in L. apply Z.mul_nonneg_nonneg; lia. }
    apply rl_included_inv in H; [lia|exact L|assumption].
  - apply bind_ok in H. destruct H as (incl & _ & H). apply bind_ok in H. destruct H as (fee & _ & H).
    apply bind_ok in H. destruct H as (n & _ & H). apply bind_ok in H. destruct H as (u & U & H).
    apply require_ok in U. apply Ok_inj in H. lia.
Qed.

(** ** The rate used by a limiter config *)
Lemma rl_applied_inv b cur act d ap : limited b -> rl_applied b cur act d = Ok ap ->
  ap = match d with QuoteToBase => cur <=? act + bf_second b | BaseToQuote => false end.
Proof.
  intros L H. unfold rl_applied, rl_is_zero in H.
  replace ((bf_third b =? 0) && (bf_second b =? 0) && (bf_first b =? 0)) with false in H
    by (unfold limited in L; lia).
  destruct d; [apply Ok_inj in H; auto|].
  apply bind_ok in H. destruct H as (l & E & H). apply sadd_ok in E. apply Ok_inj in H. lia.
Qed.
