(** * Fee schedules: C29, C30. *)
From Coq Require Import ZArith QArith List Bool Lia ZifyBool Lqa.
From Verif Require Import Base MathModel CurveModel FeeModel ConfigModel PoolModel TxModel
  SystemModel Spec Lib CurveProofs CurveLoops Potential CalcProofs ConfigProofs FeeProofs
  SwapProofs PropMath Fixtures.
Import ListNotations.
Open Scope Z_scope.
#[local] Arguments Z.pow : simpl never.
#[local] Arguments Z.testbit : simpl never.

Lemma created_base c : created c ->
  base_fee_typed (pf_base (c_fees c))
  /\ exists act, activation_of (c_activation_type c) = Ok act
     /\ base_fee_validate (pf_base (c_fees c)) (c_collect_fee_mode c) act = Ok tt.
Proof.
  intros H. apply created_inv in H.
  destruct H as (q & sup & spl & now & mig & sb & ba & fl & pre & post & qm & fc & lr & qa & bps
                 & T & _ & B).
  pose proof (cb_valid _ _ _ _ _ _ _ _ _ _ _ _ _ _ _ _ B) as V.
  apply validate_inv in V. destruct V as (_ & V).
  destruct (va_base _ _ _ V) as (act & A & VB).
  rewrite (cb_eq _ _ _ _ _ _ _ _ _ _ _ _ _ _ _ _ B). simpl.
  split; [exact (pt_base _ T)|]. exists act. auto.
Qed.

(** A fee numerator as a function of time: defined from the activation on, the cliff at
    activation, never rising, never below 0.25%, never above the cliff, constant after [last]. *)
Definition falling (f : Z -> res Z) (activation last cliff : Z) : Prop :=
  f activation = Ok cliff
  /\ forall t1 t2, activation <= t1 <= t2 ->
       exists f1 f2, f t1 = Ok f1 /\ f t2 = Ok f2
         /\ 2500000 <= f2 /\ f2 <= f1 /\ f1 <= cliff /\ (last <= t1 -> f2 = f1).

(* what the validation of a schedule says *)
Lemma sched_validate_inv b : base_fee_typed b -> sched_validate b = Ok tt ->
  bf_cliff b <= 990000000
  /\ exists mn, sched_min b = Ok mn /\ 2500000 <= mn
  /\ ((bf_first b = 0 /\ bf_second b = 0 /\ bf_third b = 0)
      \/ (0 < bf_first b <= 65535 /\ 0 < bf_second b /\ 0 < bf_third b)).
Proof.
  intros (T1 & T2 & T3 & T4 & T5) V. unfold u64ok, u16ok, U16_MAX in *. unfold sched_validate in V.
  apply bind_ok in V. destruct V as (u & A & V). apply bind_ok in V. destruct V as (mn & M & V).
  apply bind_ok in V. destruct V as (u1 & _ & V). apply bind_ok in V. destruct V as (u2 & _ & V).
  apply require_ok in V. unfold MIN_FEE_NUMERATOR, MAX_FEE_NUMERATOR in V.
  split; [lia|]. exists mn. split; [auto|]. split; [lia|].
  destruct (negb (bf_second b =? 0) || negb (bf_first b =? 0) || negb (bf_third b =? 0)) eqn:C.
  - apply require_ok in A. right. lia.
  - left. lia.
Qed.

(** A schedule by periods that never rises gives a fee that never rises in time. *)
Lemma falling_of_periods b act (g : Z -> Z) : base_fee_typed b -> sched_validate b = Ok tt ->
  (bf_second b <> 0 -> forall n, 0 <= n <= bf_first b -> sched_by_period b n = Ok (g n)) ->
  (bf_second b <> 0 -> forall n m, 0 <= n <= m -> m <= bf_first b -> g m <= g n) ->
  (bf_second b <> 0 -> g 0 = bf_cliff b) ->
  falling (fun t => sched_numerator b t act) act (act + bf_first b * bf_second b) (bf_cliff b).
Proof.
  intros T V G1 G2 G3. destruct (sched_validate_inv b T V) as (C & mn & M & M1 & Z).
  unfold falling, sched_numerator. destruct (bf_second b =? 0) eqn:E.
  - split; [reflexivity|]. intros. exists (bf_cliff b), (bf_cliff b).
    destruct Z as [(Z1 & Z2 & Z3)|Z]; [|lia].
    assert (mn <= bf_cliff b) by (apply (sched_min_le b mn T V M)). repeat split; auto; lia.
  - assert (NZ : bf_second b <> 0) by lia. specialize (G1 NZ). specialize (G2 NZ). specialize (G3 NZ).
    destruct Z as [Z|(Z1 & Z2 & Z3)]; [lia|].
    assert (GM : g (bf_first b) = mn).
    { unfold sched_min in M. rewrite G1 in M by lia. apply Ok_inj in M. auto. }
    assert (K : forall t, act <= t ->
       (do e <- ssub t act;; do period <- sdiv e (bf_second b);; sched_by_period b period)
       = Ok (g (Z.min ((t - act) / bf_second b) (bf_first b)))).
    { intros t Ht. rewrite ssub_intro by lia. cbn [bind].
      rewrite sdiv_intro by lia. cbn [bind].
      assert (0 <= (t - act) / bf_second b) by (apply Z.div_pos; lia).
      rewrite <- G1 by lia. unfold sched_by_period. rewrite Z.min_l with (n := Z.min _ _) by lia.
      reflexivity. }
    split.
    + rewrite K by lia. rewrite Z.sub_diag, Zdiv_0_l, Z.min_l by lia. rewrite G3. reflexivity.
    + intros t1 t2 Ht. do 2 eexists. split; [apply K; lia|]. split; [apply K; lia|].
      assert (0 <= (t1 - act) / bf_second b) by (apply Z.div_pos; lia).
      assert ((t1 - act) / bf_second b <= (t2 - act) / bf_second b) by (apply Z.div_le_mono; lia).
      set (n1 := (t1 - act) / bf_second b) in *. set (n2 := (t2 - act) / bf_second b) in *.
      split; [rewrite <- GM in M1; etransitivity; [exact M1|apply G2; lia]|].
      split; [apply G2; lia|]. split; [rewrite <- G3; apply G2; lia|].
      intros L. assert (bf_first b <= n1) by (apply Z.div_le_lower_bound; lia).
      rewrite !Z.min_r by lia. reflexivity.
Qed.

Lemma base_num_sched b t act d a : bf_mode b = 0 \/ bf_mode b = 1 ->
  base_num_included b t act d a = sched_numerator b t act
  /\ base_num_excluded b t act d a = sched_numerator b t act.
Proof.
  intros M. unfold base_num_included, base_num_excluded.
  replace ((bf_mode b =? 0) || (bf_mode b =? 1)) with true by lia. auto.
Qed.

Lemma falling_ext f g act last cliff : (forall t, f t = g t) -> falling g act last cliff -> falling f act last cliff.
Proof.
  intros E (A & B). split; [rewrite E; auto|]. intros t1 t2 H. destruct (B t1 t2 H) as (x & y & X & Y & Q).
  exists x, y. rewrite !E. auto.
Qed.

(** ** C29 *)
Theorem C29_linear : forall c activation d amount,
  created c -> let b := pf_base (c_fees c) in bf_mode b = 0 ->
  falling (fun t => base_num_included b t activation d amount)
          activation (activation + bf_first b * bf_second b) (bf_cliff b)
  /\ falling (fun t => base_num_excluded b t activation d amount)
          activation (activation + bf_first b * bf_second b) (bf_cliff b).
Proof.
  intros c act d a C b M. destruct (created_base c C) as (T & ac & _ & V). fold b in T, V.
  unfold base_fee_validate in V. rewrite M in V. change ((0 =? 0) || (0 =? 1)) with true in V. cbv iota in V.
  assert (F : falling (fun t => sched_numerator b t act) act (act + bf_first b * bf_second b) (bf_cliff b)).
  { destruct (sched_validate_inv b T V) as (CL & mn & MN & M1 & Z).
    pose proof T as T'. destruct T' as (T1 & T2 & T3 & T4 & T5). unfold u64ok, u16ok in *.
    apply falling_of_periods with (g := fun n => bf_cliff b - bf_third b * n).
    - exact T.
    - exact V.
    - intros NZ n N. unfold sched_min, sched_by_period in MN. rewrite Z.min_id, M in MN.
      change (0 =? 0) with true in MN. cbv iota in MN.
      apply bind_ok in MN. destruct MN as (x & X & MN). apply smul_ok in X. apply ssub_ok in MN.
      unfold sched_by_period. rewrite Z.min_l by lia. rewrite M. change (0 =? 0) with true. cbv iota.
      assert (bf_third b * n <= bf_third b * bf_first b) by (apply Z.mul_le_mono_nonneg_l; lia).
      rewrite smul_intro by lia. cbn [bind]. apply ssub_intro. lia.
    - intros NZ n m H1 H2. cbv beta. assert (bf_third b * n <= bf_third b * m) by (apply Z.mul_le_mono_nonneg_l; lia). lia.
    - intros. lia. }
  split; (eapply falling_ext; [|exact F]); intros t;
    destruct (base_num_sched b t act d a (or_introl M)) as (A & B); assumption.
Qed.

(** The value of the linear schedule. *)
Theorem C29_linear_value : forall c activation t d amount f,
  created c -> let b := pf_base (c_fees c) in bf_mode b = 0 -> activation <= t ->
  base_num_included b t activation d amount = Ok f ->
  f = bf_cliff b - bf_third b * Z.min ((t - activation) / bf_second b) (bf_first b).
Proof.
  intros c act t d a f C b M Ht H. destruct (base_num_sched b t act d a (or_introl M)) as (A & _).
  rewrite A in H. unfold sched_numerator in H. destruct (created_base c C) as (T & ac & _ & V). fold b in T, V.
  unfold base_fee_validate in V. rewrite M in V. change ((0 =? 0) || (0 =? 1)) with true in V. cbv iota in V.
  destruct (sched_validate_inv b T V) as (_ & _ & _ & _ & Z).
  destruct (bf_second b =? 0) eqn:E.
  - apply Ok_inj in H. destruct Z as [(_ & _ & ->)|Z]; lia.
  - apply bind_ok in H. destruct H as (e & E1 & H). apply ssub_ok in E1. destruct E1 as (-> & E1).
    apply bind_ok in H. destruct H as (p & P & H). apply sdiv_ok in P. destruct P as (-> & P).
    unfold sched_by_period in H. rewrite M in H. change (0 =? 0) with true in H. cbv iota in H.
    apply bind_ok in H. destruct H as (x & X & H). apply smul_ok in X. destruct X as (-> & X).
    apply ssub_ok in H. lia.
Qed.

(** ** C30: exponential schedule *)

(* the value of pow at period n, as a function *)
Definition decay (b n : Z) : Z := if n =? 0 then Q64 else match pow b n with Some r => r | None => 0 end.

Lemma decay_spec b n : 0 <= b < Q64 -> 0 <= n < 2 ^ 19 ->
  0 <= decay b n /\ decay b n * Q64 ^ n <= Q64 * b ^ n
  /\ (1 <= n -> Q64 * b ^ n < (decay b n + n) * Q64 ^ n)
  /\ (decay b n <> 0 -> pow b n = Some (decay b n)).
Proof.
  intros B N. unfold decay. destruct (n =? 0) eqn:E.
  - assert (n = 0) by lia. subst n. rewrite !Z.pow_0_r. unfold Q64 at 1 2 3. repeat split; try lia; try reflexivity.
  - destruct (C36_pow_accurate b n) as (r & R0 & R1 & R2). { exact B. } { lia. }
    change (2 ^ 64) with Q64 in R1. rewrite R2. destruct (r =? 0) eqn:Z.
    + assert (r = 0) by lia. subst r. split; [lia|]. split; [lia|]. split; [intros; lia|]. intros K. contradiction.
    + split; [lia|]. split; [lia|]. split; [intros; lia|]. reflexivity.
Qed.

Definition expo (b N : Z) : Prop :=
  0 <= b /\ 10000 * b <= 9999 * Q64 + 10000 /\ 1 <= N <= 65535 /\ Q64 <= 1000 * decay b N.

Lemma b_lt b N : expo b N -> b < Q64.
Proof. unfold expo, Q64. lia. Qed.

(* the exact power stays above the last value *)
Lemma exact_low b N n : expo b N -> 0 <= n <= N -> decay b N * Q64 ^ n <= Q64 * b ^ n.
Proof.
  intros EX H. pose proof (b_lt _ _ EX). destruct EX as (B & B1 & N1 & LOW). destruct (decay_spec b N) as (D0 & D1 & _). { lia. } { lia. }
  apply Z.mul_le_mono_pos_r with (p := Q64 ^ (N - n)). { apply Z.pow_pos_nonneg; unfold Q64; lia. }
  rewrite <- Z.mul_assoc, <- Z.pow_add_r by lia. replace (n + (N - n)) with N by lia.
  etransitivity; [exact D1|]. replace N with (n + (N - n)) at 1 by lia. rewrite Z.pow_add_r by lia.
  rewrite Z.mul_assoc. apply Z.mul_le_mono_nonneg_l.
  - apply Z.mul_nonneg_nonneg; [unfold Q64; lia|apply Z.pow_nonneg; lia].
  - apply Z.pow_le_mono_l. lia.
Qed.

Lemma decay_step b N n : expo b N -> 0 <= n -> n + 1 <= N -> decay b (n + 1) <= decay b n.
Proof.
  intros EX H H1. pose proof (b_lt _ _ EX) as BL. destruct EX as (B & B1 & N1 & LOW).
  pose proof (exact_low b N n ltac:(repeat split; lia) ltac:(lia)) as XL.
  destruct (decay_spec b n) as (D0 & D1 & D2 & _); [lia|lia|].
  destruct (decay_spec b (n + 1)) as (E0 & E1 & _ & _); [lia|lia|].
  assert (P : 0 < Q64 ^ n) by (apply Z.pow_pos_nonneg; unfold Q64; lia).
  rewrite !Z.pow_add_r, !Z.pow_1_r in E1 by lia.
  set (X := Q64 * b ^ n) in *. set (Qn := Q64 ^ n) in *. set (r := decay b n) in *.
  set (s := decay b (n + 1)) in *. set (m := decay b N) in *.
  replace (Q64 * (b ^ n * b)) with (X * b) in E1 by (unfold X; ring).
  assert (UB : X <= (r + n) * Qn).
  { destruct (Z.eq_dec n 0) as [->|]; [|lia].
    unfold r, X, Qn, decay. simpl (0 =? 0). cbv iota. rewrite !Z.pow_0_r. lia. }
  clearbody X Qn r s m.
  apply Z.mul_le_mono_pos_r with (p := Qn * Q64 * 10000). { unfold Q64; lia. }
  (* s Qn Q <= X b, b <= Q (1 - 1/10000) + 1 *)
  assert (S1 : s * (Qn * Q64 * 10000) <= X * (9999 * Q64 + 10000)).
  { replace (s * (Qn * Q64 * 10000)) with (10000 * (s * (Qn * Q64))) by ring.
    transitivity (10000 * (X * b)); [lia|].
    replace (10000 * (X * b)) with (X * (10000 * b)) by ring.
    apply Z.mul_le_mono_nonneg_l; [|exact B1].
    assert (0 <= m * Qn) by (apply Z.mul_nonneg_nonneg; [|lia]; unfold Q64 in LOW; lia). lia. }
  assert (S2 : X * (9999 * Q64 + 10000) = X * (10000 * Q64) - X * (Q64 - 10000)) by ring.
  assert (S3 : n * Qn * (10000 * Q64) <= X * (Q64 - 10000)).
  { transitivity (m * Qn * (Q64 - 10000)).
    - replace (n * Qn * (10000 * Q64)) with (Qn * (n * 10000 * Q64)) by ring.
      replace (m * Qn * (Q64 - 10000)) with (Qn * (m * (Q64 - 10000))) by ring.
      apply Z.mul_le_mono_nonneg_l; [lia|].
      assert (n * 10000 * Q64 * 1000 <= m * 1000 * (Q64 - 10000)); [|lia].
      transitivity (Q64 * (Q64 - 10000)); [unfold Q64; lia|].
      apply Z.mul_le_mono_nonneg_r; [unfold Q64; lia|lia].
    - apply Z.mul_le_mono_nonneg_r; [unfold Q64; lia|lia]. }
  assert (S4 : X * (10000 * Q64) <= (r + n) * Qn * (10000 * Q64)).
  { apply Z.mul_le_mono_nonneg_r; [unfold Q64; lia|exact UB]. }
  replace ((r + n) * Qn * (10000 * Q64)) with (r * (Qn * Q64 * 10000) + n * Qn * (10000 * Q64)) in S4 by ring.
  lia.
Qed.

Lemma decay_mono b N n m : expo b N -> 0 <= n <= m -> m <= N -> decay b m <= decay b n.
Proof.
  intros EX H H1. replace m with (n + Z.of_nat (Z.to_nat (m - n))) in * by lia.
  remember (Z.to_nat (m - n)) as k. clear Heqk.
  induction k.
  - rewrite Z.add_0_r. lia.
  - etransitivity; [|apply IHk; lia].
    replace (n + Z.of_nat (S k)) with ((n + Z.of_nat k) + 1) by lia. apply decay_step with (N := N); [exact EX|lia|lia].
Qed.

Lemma sdiv_bps x : sdiv x MAX_BASIS_POINT = Ok (x / 10000).
Proof. apply sdiv_intro. discriminate. Qed.

(* what the validation of an exponential schedule gives *)
Lemma expo_of_valid b : base_fee_typed b -> bf_mode b = 1 -> bf_second b <> 0 -> sched_validate b = Ok tt ->
  let B := Q64 - bf_third b * Q64 / 10000 in
  bf_third b * Q64 / 10000 <= Q64 /\ 1 <= bf_third b <= 10000 /\ bf_cliff b <= 990000000
  /\ expo B (bf_first b).
Proof.
  intros T M NZ V B. destruct (sched_validate_inv b T V) as (CL & mn & MN & M1 & Z).
  destruct Z as [Z|(Z1 & Z2 & Z3)]; [lia|]. destruct T as (T1 & _). unfold u64ok in T1.
  unfold sched_min, sched_by_period in MN. rewrite Z.min_id, M in MN.
  change (1 =? 0) with false in MN. change (1 =? 1) with true in MN. cbv iota in MN. unfold U16_MAX in MN.
  replace (bf_first b <=? 65535) with true in MN by lia. cbn [bind] in MN. unfold get_fee_in_period in MN.
  rewrite sdiv_bps in MN. cbn [bind] in MN. apply bind_ok in MN. destruct MN as (B' & E & MN).
  apply ssub_ok in E. destruct E as (E & E1). change ONE_Q64 with Q64 in *. fold B in E. subst B'.
  apply bind_ok in MN. destruct MN as (r & R & MN). apply ok_or_ok in R.
  apply bind_ok in MN. destruct MN as (pr & P & MN). apply smul_ok in P. destruct P as (-> & P).
  apply scast_ok in MN. destruct MN as (-> & MN).
  assert (G : bf_third b * Q64 - 10000 < 10000 * (bf_third b * Q64 / 10000) <= bf_third b * Q64).
  { pose proof (Z.div_mod (bf_third b * Q64) 10000 ltac:(lia)).
    pose proof (Z.mod_pos_bound (bf_third b * Q64) 10000 ltac:(lia)). lia. }
  assert (G2 : bf_third b <= 10000).
  { unfold Q64 in *. lia. }
  split; [exact E1|]. split; [lia|]. split; [exact CL|].
  assert (D : decay B (bf_first b) = r).
  { unfold decay. replace (bf_first b =? 0) with false by lia. rewrite R. reflexivity. }
  assert (2500000 * Q64 <= r * bf_cliff b).
  { apply div_ge; [unfold Q64; lia|]. lia. }
  assert (R0 : 0 <= r).
  { apply pow_nonneg in R; [exact R|]. unfold B. lia. }
  assert (r * bf_cliff b <= r * 990000000) by (apply Z.mul_le_mono_nonneg_l; lia).
  unfold expo. rewrite D. unfold B. repeat split; try lia.
  unfold Q64 in *. lia.
Qed.

Lemma expo_period b n : base_fee_typed b -> bf_mode b = 1 -> bf_second b <> 0 -> sched_validate b = Ok tt ->
  0 <= n <= bf_first b ->
  sched_by_period b n = Ok (decay (Q64 - bf_third b * Q64 / 10000) n * bf_cliff b / Q64).
Proof.
  intros T M NZ V H. destruct (expo_of_valid b T M NZ V) as (A & A1 & CL & EX).
  set (B := Q64 - bf_third b * Q64 / 10000) in *.
  pose proof (b_lt _ _ EX) as BL. destruct T as (T1 & _). unfold u64ok in T1.
  unfold sched_by_period. rewrite Z.min_l by lia. rewrite M.
  change (1 =? 0) with false. change (1 =? 1) with true. cbv iota. unfold U16_MAX.
  replace (n <=? 65535) with true by (unfold expo in EX; lia). cbn [bind]. unfold get_fee_in_period.
  rewrite sdiv_bps. cbn [bind]. rewrite ssub_intro by exact A. cbn [bind]. change ONE_Q64 with Q64. fold B.
  pose proof (decay_mono B (bf_first b) n (bf_first b) EX ltac:(lia) ltac:(lia)) as D.
  pose proof (decay_mono B (bf_first b) 0 n EX ltac:(lia) ltac:(lia)) as D'.
  unfold expo in EX. change (decay B 0) with Q64 in D'.
  destruct (decay_spec B n) as (E0 & E1 & _ & E2). { lia. } { lia. }
  assert (decay B n <> 0) by (unfold Q64 in *; lia). rewrite E2 by assumption. cbn [ok_or bind].
  set (r := decay B n) in *. clearbody r.
  assert (r * bf_cliff b <= Q64 * 990000000) by (apply Z.mul_le_mono_nonneg; lia).
  rewrite smul_intro by (unfold U128_MAX, Q64 in *; lia). cbn [bind].
  apply scast_intro. apply Z.div_le_upper_bound; unfold Q64, U64_MAX in *; lia.
Qed.

Theorem C30_exponential : forall c activation d amount,
  created c -> let b := pf_base (c_fees c) in bf_mode b = 1 ->
  falling (fun t => base_num_included b t activation d amount)
          activation (activation + bf_first b * bf_second b) (bf_cliff b)
  /\ falling (fun t => base_num_excluded b t activation d amount)
          activation (activation + bf_first b * bf_second b) (bf_cliff b).
Proof.
  intros c act d a C b M. destruct (created_base c C) as (T & ac & _ & V). fold b in T, V.
  unfold base_fee_validate in V. rewrite M in V. change ((1 =? 0) || (1 =? 1)) with true in V. cbv iota in V.
  assert (F : falling (fun t => sched_numerator b t act) act (act + bf_first b * bf_second b) (bf_cliff b)).
  { apply falling_of_periods with
      (g := fun n => decay (Q64 - bf_third b * Q64 / 10000) n * bf_cliff b / Q64).
    - exact T.
    - exact V.
    - intros NZ n N. apply expo_period; auto.
    - intros NZ n m H1 H2. destruct (expo_of_valid b T M NZ V) as (_ & _ & CL & EX).
      destruct T as (T1 & _). unfold u64ok in T1.
      apply Z.div_le_mono; [unfold Q64; lia|]. apply Z.mul_le_mono_nonneg_r; [lia|].
      eapply decay_mono; eauto.
    - intros NZ. unfold decay. change (0 =? 0) with true. cbv iota. rewrite Z.mul_comm. apply Z.div_mul. discriminate. }
  split; (eapply falling_ext; [|exact F]); intros t;
    destruct (base_num_sched b t act d a (or_intror M)) as (A & B); assumption.
Qed.

Lemma base_close B red n : 0 <= red <= 10000 -> B = Q64 - red * Q64 / 10000 -> 0 <= n ->
  (Q64 * (10000 - red)) ^ n <= (10000 * B) ^ n
  /\ Q64 * (10000 * B) ^ n <= Q64 * (Q64 * (10000 - red)) ^ n + n * (10000 * Q64) ^ n.
Proof.
  intros R EB. assert (G : red * Q64 - 10000 < 10000 * (red * Q64 / 10000) <= red * Q64).
  { pose proof (Z.div_mod (red * Q64) 10000 ltac:(lia)).
    pose proof (Z.mod_pos_bound (red * Q64) 10000 ltac:(lia)). lia. }
  assert (G1 : Q64 * (10000 - red) <= 10000 * B <= Q64 * (10000 - red) + 10000) by lia.
  assert (G2 : 0 <= red * Q64 / 10000) by (apply Z.div_pos; unfold Q64; lia).
  assert (G3 : 0 <= Q64 * (10000 - red) <= 10000 * Q64) by (unfold Q64; lia).
  assert (G4 : 10000 * B <= 10000 * Q64) by lia. clear EB G G2 R.
  set (x := Q64 * (10000 - red)) in *. set (y := 10000 * B) in *. set (Z1 := 10000 * Q64) in *.
  assert (Z0 : 0 < Z1 /\ 10000 * Q64 = Z1) by (split; reflexivity). clearbody x y Z1.
  intros N. split; [apply Z.pow_le_mono_l; lia|].
  pattern n. apply natlike_ind; [|clear n N|exact N].
  - rewrite !Z.pow_0_r. lia.
  - intros n N IH. replace (Z.succ n) with (n + 1) by lia. rewrite !Z.pow_add_r, !Z.pow_1_r by lia.
    assert (P0 : 0 <= x ^ n) by (apply Z.pow_nonneg; lia).
    assert (P1 : x ^ n <= Z1 ^ n) by (apply Z.pow_le_mono_l; lia).
    set (X := x ^ n) in *. set (Y := y ^ n) in *. set (W := Z1 ^ n) in *. clearbody X Y W.
    transitivity (y * (Q64 * X + n * W)).
    { replace (Q64 * (Y * y)) with (y * (Q64 * Y)) by ring. apply Z.mul_le_mono_nonneg_l; lia. }
    assert (y * (Q64 * X) <= (x + 10000) * (Q64 * X)) by (apply Z.mul_le_mono_nonneg_r; unfold Q64; lia).
    assert (y * (n * W) <= Z1 * (n * W)) by (apply Z.mul_le_mono_nonneg_r; [apply Z.mul_nonneg_nonneg|]; lia).
    assert (Z1 * X <= Z1 * W) by (apply Z.mul_le_mono_nonneg_l; lia).
    destruct Z0 as (_ & Z0).
    replace (y * (Q64 * X + n * W)) with (y * (Q64 * X) + y * (n * W)) by ring.
    replace ((x + 10000) * (Q64 * X)) with (Q64 * (X * x) + 10000 * Q64 * X) in H by ring.
    rewrite Z0 in H. replace ((n + 1) * (W * Z1)) with (Z1 * (n * W) + Z1 * W) by ring. lia.
Qed.

(** A fee of cliff * (1 - reduction)^n computed with 64 fractional bits is within two units of the
    exact one. *)
Lemma expo_value c0 red N n f : let B := Q64 - red * Q64 / 10000 in
  0 <= c0 <= 990000000 -> 1 <= red <= 10000 -> expo B N -> 0 <= n <= N -> decay B n * c0 / Q64 = f ->
  (f - 1) * 10000 ^ n < c0 * (10000 - red) ^ n /\ c0 * (10000 - red) ^ n < (f + 2) * 10000 ^ n.
Proof.
  intros B T1 X2 EX N0 K. pose proof (b_lt _ _ EX) as BL.
  destruct (base_close B red n ltac:(lia) eq_refl ltac:(lia)) as (C1 & C2).
  unfold expo in EX. destruct (decay_spec B n) as (D0 & D1 & D2 & _); [lia|lia|].
  assert (D3 : Q64 * B ^ n <= (decay B n + n) * Q64 ^ n).
  { destruct (Z.eq_dec n 0) as [Z0|]; [|lia]. rewrite Z0. change (decay B 0) with Q64. rewrite !Z.pow_0_r. lia. }
  set (r := decay B n) in *. clearbody r.
  rewrite !Z.pow_mul_l in C1. rewrite (Z.pow_mul_l 10000 B), (Z.pow_mul_l Q64), (Z.pow_mul_l 10000 Q64) in C2.
  assert (PQ : 0 < Q64 ^ n) by (apply Z.pow_pos_nonneg; unfold Q64; lia).
  assert (PT : 0 < 10000 ^ n) by (apply Z.pow_pos_nonneg; lia).
  assert (PX : 0 <= (10000 - red) ^ n) by (apply Z.pow_nonneg; lia).
  assert (PB : 0 <= B ^ n) by (apply Z.pow_nonneg; lia).
  assert (NB : n <= 65535) by lia.
  set (q := Q64 ^ n) in *. set (w := 10000 ^ n) in *. set (X := (10000 - red) ^ n) in *.
  set (Y := B ^ n) in *. clearbody q w X Y.
  (* r * w <= Q X + n w  and  Q X <= (r + n) w *)
  assert (L1 : r * w <= Q64 * X + n * w).
  { apply Z.mul_le_mono_pos_r with (p := q); [exact PQ|].
    replace ((Q64 * X + n * w) * q) with (Q64 * (q * X) + n * (w * q)) by ring.
    etransitivity; [|exact C2]. replace (r * w * q) with (w * (r * q)) by ring.
    replace (Q64 * (w * Y)) with (w * (Q64 * Y)) by ring. apply Z.mul_le_mono_nonneg_l; lia. }
  assert (L2 : Q64 * X <= (r + n) * w).
  { apply Z.mul_le_mono_pos_r with (p := q); [exact PQ|].
    transitivity (w * (Q64 * Y)).
    - replace (Q64 * X * q) with (Q64 * (q * X)) by ring. replace (w * (Q64 * Y)) with (Q64 * (w * Y)) by ring.
      apply Z.mul_le_mono_nonneg_l; [unfold Q64; lia|exact C1].
    - replace ((r + n) * w * q) with (w * ((r + n) * q)) by ring. apply Z.mul_le_mono_nonneg_l; lia. }
  assert (F1 : f * Q64 <= r * c0 < (f + 1) * Q64).
  { rewrite <- K. pose proof (Z.div_mod (r * c0) Q64 ltac:(discriminate)).
    pose proof (Z.mod_pos_bound (r * c0) Q64 ltac:(reflexivity)). lia. }
  assert (NC : n * c0 < Q64).
  { apply Z.le_lt_trans with (65535 * 990000000); [apply Z.mul_le_mono_nonneg; lia|reflexivity]. }
  clear - L1 L2 F1 NC PT PX T1.
  assert (Q0 : 0 < Q64) by reflexivity.
  split; apply Z.mul_lt_mono_pos_r with (p := Q64); try exact Q0.
  + assert (w * (f * Q64) <= w * (r * c0)) by (apply Z.mul_le_mono_nonneg_l; lia).
    assert (c0 * (r * w) <= c0 * (Q64 * X + n * w)) by (apply Z.mul_le_mono_nonneg_l; lia).
    assert (w * (n * c0) < w * Q64) by (apply Z.mul_lt_mono_pos_l; lia).
    replace ((f - 1) * w * Q64) with (w * (f * Q64) - w * Q64) by ring.
    replace (c0 * (Q64 * X + n * w)) with (c0 * X * Q64 + w * (n * c0)) in * by ring.
    replace (c0 * (r * w)) with (w * (r * c0)) in * by ring. lia.
  + assert (w * (r * c0) < w * ((f + 1) * Q64)) by (apply Z.mul_lt_mono_pos_l; lia).
    assert (c0 * (Q64 * X) <= c0 * ((r + n) * w)) by (apply Z.mul_le_mono_nonneg_l; lia).
    assert (w * (n * c0) < w * Q64) by (apply Z.mul_lt_mono_pos_l; lia).
    replace ((f + 2) * w * Q64) with (w * ((f + 1) * Q64) + w * Q64) by ring.
    replace (c0 * ((r + n) * w)) with (w * (r * c0) + w * (n * c0)) in * by ring.
    replace (c0 * (Q64 * X)) with (c0 * X * Q64) in * by ring. lia.
Qed.

(** The exponential fee is within two units of the numerator of cliff * (1 - reduction)^n, i.e.
    within 0.0000002%. *)
Theorem C30_exponential_value : forall c activation t d amount f,
  created c -> let b := pf_base (c_fees c) in bf_mode b = 1 -> activation <= t ->
  base_num_included b t activation d amount = Ok f ->
  let n := Z.min ((t - activation) / bf_second b) (bf_first b) in
  (f - 1) * 10000 ^ n < bf_cliff b * (10000 - bf_third b) ^ n
  /\ bf_cliff b * (10000 - bf_third b) ^ n < (f + 2) * 10000 ^ n.
Proof.
  intros c act t d a f C b M Ht H n. destruct (base_num_sched b t act d a (or_intror M)) as (A & _).
  rewrite A in H. unfold sched_numerator in H. destruct (created_base c C) as (T & ac & _ & V). fold b in T, V.
  unfold base_fee_validate in V. rewrite M in V. change ((1 =? 0) || (1 =? 1)) with true in V. cbv iota in V.
  destruct (bf_second b =? 0) eqn:E.
  - apply Ok_inj in H. destruct (sched_validate_inv b T V) as (_ & mn & _ & _ & Z).
    destruct Z as [(Z1 & Z2 & Z3)|Z]; [|lia]. assert (N0 : n = 0).
    { unfold n. rewrite Z1, Z2, Zdiv_0_r. reflexivity. }
    rewrite N0, !Z.pow_0_r. lia.
  - assert (NZ : bf_second b <> 0) by lia. apply bind_ok in H. destruct H as (e & E1 & H). apply ssub_ok in E1. destruct E1 as (-> & E1).
    apply bind_ok in H. destruct H as (p & P & H). apply sdiv_ok in P. destruct P as (-> & P).
    destruct (expo_of_valid b T M NZ V) as (X1 & X2 & CL & EX).
    assert (0 < bf_second b) by (destruct T as (_ & _ & T3 & _); unfold u64ok in T3; lia).
    assert (N0 : 0 <= n <= bf_first b).
    { unfold n. assert (0 <= (t - act) / bf_second b) by (apply Z.div_pos; lia). unfold expo in EX. lia. }
    assert (K : sched_by_period b n = Ok f).
    { rewrite <- H. unfold sched_by_period. fold n. rewrite Z.min_l by lia. reflexivity. }
    rewrite expo_period in K by auto. apply Ok_inj in K.
    set (B := Q64 - bf_third b * Q64 / 10000) in *. pose proof (b_lt _ _ EX) as BL.
    unfold u64ok in *. destruct T as (T1 & _). unfold u64ok in T1.
    exact (expo_value (bf_cliff b) (bf_third b) (bf_first b) n f ltac:(lia) X2 EX N0 K).
Qed.

(** Non-vacuity: fixture configs with a linear schedule (5% falling by 0.4% every 60 s, 10 times)
    and an exponential one (10% falling by 5% of itself every 60 s, 20 times). *)
Example C29_case : fx_config fx_paramsA = Ok cfgA /\ bf_mode (pf_base (c_fees cfgA)) = 0
  /\ base_num_included (pf_base (c_fees cfgA)) 1700000000 1700000000 QuoteToBase 1 = Ok 50000000
  /\ base_num_included (pf_base (c_fees cfgA)) 1700000119 1700000000 QuoteToBase 1 = Ok 46000000
  /\ base_num_included (pf_base (c_fees cfgA)) 1800000000 1700000000 QuoteToBase 1 = Ok 10000000.
Proof. split; [apply cfgA_created|]. vm_compute. auto. Qed.
Example C30_case : fx_config fx_paramsB = Ok cfgB /\ bf_mode (pf_base (c_fees cfgB)) = 1
  /\ base_num_included (pf_base (c_fees cfgB)) 1700000000 1700000000 QuoteToBase 1 = Ok 100000000
  /\ base_num_included (pf_base (c_fees cfgB)) 1700000119 1700000000 QuoteToBase 1 = Ok 95000000
  /\ base_num_included (pf_base (c_fees cfgB)) 1800000000 1700000000 QuoteToBase 1 = Ok 35848592.
Proof. split; [apply cfgB_created|]. vm_compute. auto. Qed.

Print Assumptions C29_linear.
Print Assumptions C29_linear_value.
Print Assumptions C30_exponential.
Print Assumptions C30_exponential_value.
