(** * Integer square root and fixed-point power: C35, C36. *)
From Coq Require Import ZArith List Bool Lia ZifyBool.
From Verif Require Import Base MathModel Lib.
Import ListNotations.
Open Scope Z_scope.
#[local] Arguments Z.pow : simpl never.
#[local] Arguments Z.testbit : simpl never.

(** ** C35 *)

(** One digit: with [bit = 4^k], [s] the root found so far (a multiple of 2^(k+1)),
    [n = N - s^2] and [result = s * 2^(k+1)]. *)
Lemma sqrt_loop_ok N : 0 <= N < 2 ^ 256 -> forall (k : nat) fuel s t,
  (k < fuel)%nat -> (k <= 127)%nat ->
  0 <= t -> s = t * 2 ^ (Z.of_nat k + 1) -> s * s <= N < (s + 2 ^ (Z.of_nat k + 1)) * (s + 2 ^ (Z.of_nat k + 1)) ->
  sqrt_loop (S fuel) (4 ^ Z.of_nat k) (N - s * s) (s * 2 ^ (Z.of_nat k + 1)) = Some (Z.sqrt N).
Proof.
  intros HN. induction k as [|k IH]; intros fuel s t F K T E B.
  - change (4 ^ Z.of_nat 0) with 1. change (2 ^ (Z.of_nat 0 + 1)) with 2 in *.
    assert (S128 : s < 2 ^ 128).
    { change (2 ^ 256) with (2 ^ 128 * 2 ^ 128) in HN. nia. }
    assert (s <= 2 ^ 128 - 2).
    { assert (E128 : 2 ^ 128 = 2 * 2 ^ 127) by reflexivity. lia. }
    assert (U : s * 2 + 1 <= U256_MAX).
    { unfold U256_MAX, Q256. lia. }
    destruct fuel as [|fuel]; [lia|].
    cbn [sqrt_loop]. change (1 =? 0) with false. cbv iota.
    replace (U256_MAX <? s * 2 + 1) with false by lia.
    rewrite Z.odd_mul. change (Z.odd 2) with false. rewrite andb_false_r.
    destruct (s * 2 + 1 <=? N - s * s) eqn:C.
    + rewrite Z.div_mul by lia. replace (U256_MAX <? s + 1) with false by lia.
      change (1 / 4) with 0. destruct fuel; cbn [sqrt_loop]; change (0 =? 0) with true; cbv iota;
      f_equal; symmetry; apply Z.sqrt_unique; lia.
    + rewrite Z.div_mul by lia. change (1 / 4) with 0.
      destruct fuel; cbn [sqrt_loop]; change (0 =? 0) with true; cbv iota;
      f_equal; symmetry; apply Z.sqrt_unique; lia.
  - rewrite Nat2Z.inj_succ in *. set (z := Z.of_nat k) in *.
    assert (Z0 : 0 <= z <= 126) by lia.
    assert (P2 : 2 ^ (Z.succ z + 1) = 2 * 2 ^ (z + 1)).
    { replace (Z.succ z + 1) with (1 + (z + 1)) by lia. rewrite Z.pow_add_r by lia. reflexivity. }
    assert (P4 : 4 ^ Z.succ z = 2 ^ (z + 1) * 2 ^ (z + 1)).
    { rewrite <- Z.pow_add_r by lia. change 4 with (2 ^ 2). rewrite <- Z.pow_mul_r by lia. f_equal. lia. }
    assert (P4' : 4 ^ Z.succ z / 4 = 4 ^ z).
    { rewrite Z.pow_succ_r by lia. rewrite Z.mul_comm. apply Z.div_mul. lia. }
    assert (PS : exists q, 2 ^ 128 = 2 * 2 ^ (z + 1) * q).
    { exists (2 ^ (126 - z)). rewrite <- P2, <- Z.pow_add_r by lia. f_equal. lia. }
    rewrite P2 in *. rewrite P4 in *.
    assert (PP : 1 <= 2 ^ (z + 1)) by (apply (Z.pow_le_mono_r 2 0 (z + 1)); lia).
    cbn [sqrt_loop]. rewrite P4'. set (p := 2 ^ (z + 1)) in *. destruct PS as (q & PS).
    assert (S0 : 0 <= s) by (subst s; apply Z.mul_nonneg_nonneg; lia).
    assert (S128 : s < 2 ^ 128).
    { change (2 ^ 256) with (2 ^ 128 * 2 ^ 128) in HN. clear - HN B S0. nia. }
    assert (S1 : s + 2 * p <= 2 ^ 128).
    { rewrite PS in *. subst s. assert (t < q) by nia. nia. }
    assert (SP : (s + p) * (s + p) < 2 ^ 256).
    { change (2 ^ 256) with (2 ^ 128 * 2 ^ 128). clear - S0 S1 PP. nia. }
    assert (UM : U256_MAX = 2 ^ 256 - 1) by reflexivity.
    assert (D : s * (2 * p) / 2 = s * p).
    { replace (s * (2 * p)) with (s * p * 2) by lia. apply Z.div_mul. lia. }
    rewrite D.
    assert (B0 : p * p =? 0 = false) by nia. rewrite B0.
    replace (U256_MAX <? s * (2 * p) + p * p) with false by nia.
    replace (Z.odd (s * (2 * p))) with false
      by (rewrite !Z.odd_mul; change (Z.odd 2) with false; cbn [andb]; rewrite andb_false_r; reflexivity).
    destruct fuel as [|fuel]; [lia|].
    destruct (s * (2 * p) + p * p <=? N - s * s) eqn:C.
    + replace (U256_MAX <? s * p + p * p) with false by nia.
      replace (N - s * s - (s * (2 * p) + p * p)) with (N - (s + p) * (s + p)) by lia.
      replace (s * p + p * p) with ((s + p) * p) by lia.
      apply (IH fuel (s + p) (2 * t + 1)); lia.
    + apply (IH fuel s (2 * t)); lia.
Qed.

Theorem C35_sqrt_exact : forall n, 0 <= n <= U256_MAX ->
  exists r, sqrt_u256 n = Some r /\ 0 <= r /\ r * r <= n < (r + 1) * (r + 1).
Proof.
  intros n H. exists (Z.sqrt n). split; [|split; [apply Z.sqrt_nonneg|apply Z.sqrt_spec; lia]].
  unfold sqrt_u256. destruct (n =? 0) eqn:E; [replace n with 0 by lia; reflexivity|].
  assert (HN : 0 < n < 2 ^ 256) by (change (2 ^ 256) with (U256_MAX + 1); lia).
  pose proof (Z.log2_spec n ltac:(lia)) as (L1 & L2).
  pose proof (Z.log2_nonneg n) as L0.
  assert (L3 : Z.log2 n < 256) by (apply Z.log2_lt_pow2; lia).
  set (k := Z.log2 n / 2).
  assert (K0 : 0 <= k <= 127).
  { unfold k. split; [apply Z.div_pos; lia|]. assert (Z.log2 n / 2 < 128) by (apply Z.div_lt_upper_bound; lia). lia. }
  assert (K1 : Z.log2 n < 2 * k + 2).
  { unfold k. pose proof (Z.div_mod (Z.log2 n) 2 ltac:(lia)). pose proof (Z.mod_pos_bound (Z.log2 n) 2 ltac:(lia)). lia. }
  replace (2 ^ (2 * k)) with (4 ^ Z.of_nat (Z.to_nat k)).
  2:{ rewrite Z2Nat.id by lia. change 4 with (2 ^ 2). rewrite <- Z.pow_mul_r by lia. reflexivity. }
  replace n with (n - 0 * 0) at 1 by lia.
  pose proof (sqrt_loop_ok n ltac:(lia) (Z.to_nat k) 129 0 0 ltac:(lia) ltac:(lia) ltac:(lia)) as L.
  rewrite Z.mul_0_l in L. apply L; [lia|].
  split; [lia|]. rewrite Z2Nat.id by lia. rewrite !Z.add_0_l, <- Z.pow_add_r by lia.
  apply Z.lt_le_trans with (2 ^ Z.succ (Z.log2 n)); [exact L2|].
  apply Z.pow_le_mono_r; lia.
Qed.
Example C35_case : sqrt_u256 U256_MAX = Some U128_MAX /\ sqrt_u256 (U128_MAX * U128_MAX - 1) = Some (U128_MAX - 1).
Proof. split; vm_compute; reflexivity. Qed.

(** ** C36 *)

(** [s] approximates [(b/Q)^n] in units of [1/Q], from below, by less than [n] units. *)
Definition approx (b n s : Z) : Prop :=
  0 <= s /\ s * Q64 ^ n <= Q64 * b ^ n <= (s + n - 1) * Q64 ^ n.

Lemma approx_one b : 0 <= b -> approx b 1 b.
Proof. intros H. unfold approx. rewrite !Z.pow_1_r. unfold Q64. lia. Qed.

Lemma approx_le b n s : 0 <= b <= Q64 -> 0 <= n -> approx b n s -> s <= Q64 /\ Q64 * b ^ n <= Q64 * Q64 ^ n.
Proof.
  intros Hb Hn (S0 & S1 & _). assert (b ^ n <= Q64 ^ n) by (apply Z.pow_le_mono_l; lia).
  assert (0 < Q64 ^ n) by (apply Z.pow_pos_nonneg; [reflexivity|lia]).
  assert (Q64 * b ^ n <= Q64 * Q64 ^ n) by (apply Z.mul_le_mono_nonneg_l; [unfold Q64|]; lia).
  split; [|auto]. nia.
Qed.

Lemma approx_mul b n m s t u : 0 <= b < Q64 -> 1 <= n -> 1 <= m ->
  approx b n s -> approx b m t -> mulq s t = Some u -> approx b (n + m) u.
Proof.
  intros Hb Hn Hm A B H.
  destruct (approx_le b n s) as (SQ & XQ); [lia|lia|auto|].
  destruct (approx_le b m t) as (TQ & YQ); [lia|lia|auto|].
  destruct A as (S0 & S1 & S2), B as (T0 & T1 & T2).
  unfold mulq in H. destruct (s * t <=? U128_MAX); inversion H; clear H.
  assert (Q0 : 0 < Q64) by reflexivity.
  pose proof (Z.div_mod (s * t) Q64 ltac:(lia)) as DM. pose proof (Z.mod_pos_bound (s * t) Q64 Q0) as MB.
  rewrite H1 in DM. assert (U0 : 0 <= u) by (subst u; apply Z.div_pos; nia).
  rewrite H1. unfold approx. split; [auto|]. rewrite !Z.pow_add_r by lia.
  set (P := Q64 ^ n) in *. set (R := Q64 ^ m) in *. set (x := b ^ n) in *. set (y := b ^ m) in *.
  assert (P0 : 0 < P) by (apply Z.pow_pos_nonneg; lia).
  assert (R0 : 0 < R) by (apply Z.pow_pos_nonneg; lia).
  set (X := Q64 * x) in *. set (Y := Q64 * y) in *.
  assert (XY : Q64 * (Q64 * (x * y)) = X * Y) by (unfold X, Y; lia).
  assert (X0 : 0 <= X) by (apply Z.mul_nonneg_nonneg; [lia|apply Z.pow_nonneg; lia]).
  assert (Y0 : 0 <= Y) by (apply Z.mul_nonneg_nonneg; [lia|apply Z.pow_nonneg; lia]).
  assert (LO : (s * P) * (t * R) <= X * Y) by (apply Z.mul_le_mono_nonneg; nia).
  assert (HI : X * Y <= s * P * (t * R) + (n - 1) * P * (Q64 * R) + Q64 * P * ((m - 1) * R)).
  { assert (E : X * Y = s * P * (t * R) + (X - s * P) * Y + s * P * (Y - t * R)) by ring. rewrite E.
    assert ((X - s * P) * Y <= (n - 1) * P * (Q64 * R)) by (apply Z.mul_le_mono_nonneg; lia).
    assert (s * P * (Y - t * R) <= Q64 * P * ((m - 1) * R)) by (apply Z.mul_le_mono_nonneg; nia).
    lia. }
  set (W := P * R) in *. assert (W0 : 0 < W) by (unfold W; nia).
  assert (L1 : s * P * (t * R) = (s * t) * W) by (unfold W; ring). rewrite L1 in *.
  assert (L2 : (n - 1) * P * (Q64 * R) = Q64 * ((n - 1) * W)) by (unfold W; ring). rewrite L2 in HI.
  assert (L3 : Q64 * P * ((m - 1) * R) = Q64 * ((m - 1) * W)) by (unfold W; ring). rewrite L3 in HI.
  rewrite <- XY in LO, HI. clear XY L1 L2 L3.
  assert (Q64 * u * W <= s * t * W) by (apply Z.mul_le_mono_nonneg_r; lia).
  assert (s * t * W <= Q64 * (u + 1) * W) by (apply Z.mul_le_mono_nonneg_r; lia).
  clear - LO HI H H0 Q0. 
  assert (Q64 * (u * W) <= Q64 * (Q64 * (x * y))) by lia.
  assert (Q64 * (Q64 * (x * y)) <= Q64 * ((u + (n + m) - 1) * W)) by lia.
  split; nia.
Qed.

Lemma mulq_some s t : 0 <= s <= Q64 -> 0 <= t < Q64 -> mulq s t = Some (s * t / Q64) /\ 0 <= s * t / Q64 <= t.
Proof.
  intros Hs Ht. unfold mulq. assert (s * t <= Q64 * (Q64 - 1)) by nia.
  replace (s * t <=? U128_MAX) with true.
  2:{ symmetry. apply Z.leb_le. change U128_MAX with (Q64 * Q64 - 1). lia. }
  split; [reflexivity|]. split; [apply Z.div_pos; [nia|reflexivity]|].
  apply Z.div_le_upper_bound; [reflexivity|]. nia.
Qed.

Lemma mod_bit e i : 0 <= e -> 0 <= i ->
  e mod 2 ^ (i + 1) = e mod 2 ^ i + (if Z.testbit e i then 2 ^ i else 0).
Proof.
  intros He Hi. rewrite Z.pow_add_r, Z.pow_1_r by lia.
  assert (P : 0 < 2 ^ i) by (apply Z.pow_pos_nonneg; lia).
  rewrite Z.rem_mul_r by lia. rewrite Z.testbit_odd, Z.shiftr_div_pow2 by lia.
  rewrite Zmod_odd. destruct (Z.odd (e / 2 ^ i)); lia.
Qed.

(* what has been multiplied so far: nothing, or an approximation of the power *)
Definition partial_pow (b n r : Z) : Prop := (n = 0 /\ r = Q64) \/ (1 <= n /\ approx b n r).

Lemma partial_mul b n m r t : 0 <= b < Q64 -> 1 <= m -> 0 <= n -> 0 <= t < Q64 ->
  partial_pow b n r -> approx b m t -> exists u, mulq r t = Some u /\ partial_pow b (n + m) u.
Proof.
  intros Hb Hm Hn Ht P A. destruct P as [(-> & ->)|(N & P)].
  - exists t. split.
    + destruct (mulq_some Q64 t) as (-> & _); [unfold Q64; lia|lia|].
      f_equal. rewrite Z.mul_comm. apply Z.div_mul. discriminate.
    + right. split; [lia|]. replace (0 + m) with m by lia. exact A.
  - destruct (approx_le b n r) as (RQ & _); [lia|lia|auto|].
    destruct (mulq_some r t) as (M & _); [destruct P; lia|lia|].
    exists (r * t / Q64). split; auto. right. split; [lia|]. eapply approx_mul; eauto.
Qed.

Lemma pow_bits_ok b e : 0 <= b < Q64 -> 0 <= e -> forall n i sq r,
  0 <= i -> 0 <= sq < Q64 -> approx b (2 ^ i) sq -> partial_pow b (e mod 2 ^ (i + 1)) r ->
  exists x, pow_bits n (i + 1) e sq r = Some x /\ partial_pow b (e mod 2 ^ (i + 1 + Z.of_nat n)) x.
Proof.
  intros Hb He. induction n as [|n IH]; intros i sq r Hi Hs A P.
  - exists r. split; [reflexivity|]. replace (i + 1 + Z.of_nat 0) with (i + 1) by lia. exact P.
  - cbn [pow_bits]. destruct (mulq_some sq sq) as (M & M1); [lia|lia|]. rewrite M.
    set (sq' := sq * sq / Q64) in *.
    assert (P2 : 1 <= 2 ^ i) by (apply (Z.pow_le_mono_r 2 0 i); lia).
    assert (A' : approx b (2 ^ (i + 1)) sq').
    { rewrite Z.pow_add_r, Z.pow_1_r by lia. replace (2 ^ i * 2) with (2 ^ i + 2 ^ i) by lia.
      eapply approx_mul; eauto. }
    assert (MB : 0 <= e mod 2 ^ (i + 1)) by (apply Z.mod_pos_bound, Z.pow_pos_nonneg; lia).
    assert (P3 : 1 <= 2 ^ (i + 1)) by (apply (Z.pow_le_mono_r 2 0 (i + 1)); lia).
    assert (X : exists r', pow_step e (i + 1) sq' r = Some r' /\ partial_pow b (e mod 2 ^ (i + 1 + 1)) r').
    { rewrite (mod_bit e (i + 1)) by lia. unfold pow_step. destruct (Z.testbit e (i + 1)).
      - apply partial_mul; auto; lia.
      - exists r. split; auto. rewrite Z.add_0_r. exact P. }
    destruct X as (r' & -> & P').
    destruct (IH (i + 1) sq' r') as (x & X & PX); auto; try lia.
    exists x. split; [exact X|]. replace (i + 1 + Z.of_nat (S n)) with (i + 1 + 1 + Z.of_nat n) by lia. exact PX.
Qed.

(** For a base [b/2^64] below one and an exponent from 1 up to 2^19 - 1, the result [r/2^64] is at
    most the exact power and less than [e] units of 2^-64 below it; the function fails only when
    the result would be zero. *)
Theorem C36_pow_accurate : forall b e, 0 <= b < 2 ^ 64 -> 1 <= e < 2 ^ 19 ->
  exists r, 0 <= r
    /\ r * (2 ^ 64) ^ e <= 2 ^ 64 * b ^ e < (r + e) * (2 ^ 64) ^ e
    /\ pow b e = (if r =? 0 then None else Some r).
Proof.
  intros b e Hb He. change (2 ^ 64) with Q64 in *. unfold pow.
  replace (e =? -2147483648) with false by lia. replace (e =? 0) with false by lia.
  rewrite Z.abs_eq by lia. change MAX_EXPONENTIAL with (2 ^ 19).
  replace (2 ^ 19 <=? e) with false by lia. change ONE_Q64 with Q64.
  replace (Q64 <=? b) with false by lia. replace (e <? 0) with false by lia. cbv zeta beta iota.
  assert (X : exists r0, pow_step e 0 b Q64 = Some r0 /\ partial_pow b (e mod 2 ^ (0 + 1)) r0).
  { rewrite mod_bit by lia. replace (e mod 2 ^ 0) with 0 by (symmetry; apply Z.mod_1_r).
    unfold pow_step. destruct (Z.testbit e 0).
    - apply partial_mul; try lia; [left; auto|]. change (2 ^ 0) with 1. apply approx_one. lia.
    - exists Q64. split; auto. left. auto. }
  destruct X as (r0 & -> & P0).
  destruct (pow_bits_ok b e Hb ltac:(lia) 18 0 b r0) as (x & PB & PX); auto; try lia.
  { change (2 ^ 0) with 1. apply approx_one. lia. }
  change (0 + 1) with 1 in PB. rewrite PB.
  change (0 + 1 + Z.of_nat 18) with 19 in PX. rewrite Z.mod_small in PX by lia.
  destruct PX as [(E & _)|(_ & A)]; [lia|]. destruct A as (A0 & A1 & A2).
  exists x. split; [auto|]. split; [|reflexivity]. split; [auto|].
  assert (0 < Q64 ^ e) by (apply Z.pow_pos_nonneg; [reflexivity|lia]). nia.
Qed.
Example C36_case : pow (Q64 - Q64 / 100) 1000 = Some 796368952327208 /\ pow (Q64 - Q64 / 100) 10000 = None.
Proof. vm_compute. split; reflexivity. Qed.

(** The rest of the domain: a base of one or more, or a negative exponent, goes through the
    reciprocal (2^128 - 1) / x of the base, of the result, or of both. *)
Theorem C36_pow_reciprocal : forall b e, 0 < b < 2 ^ 128 -> e <> 0 -> Z.abs e < 2 ^ 19 ->
  let small := if 2 ^ 64 <=? b then (2 ^ 128 - 1) / b else b in
  0 <= small < 2 ^ 64
  /\ pow b e = match pow small (Z.abs e) with
               | Some r => Some (if xorb (2 ^ 64 <=? b) (e <? 0) then (2 ^ 128 - 1) / r else r)
               | None => None
               end.
Proof.
  intros b e Hb He Ha. cbv zeta.
  assert (S : 0 <= (if 2 ^ 64 <=? b then (2 ^ 128 - 1) / b else b) < 2 ^ 64).
  { destruct (2 ^ 64 <=? b) eqn:E; [|lia]. split; [apply Z.div_pos; lia|].
    apply Z.div_lt_upper_bound; [lia|]. change (2 ^ 128) with (2 ^ 64 * 2 ^ 64).
    assert (2 ^ 64 * 2 ^ 64 <= b * 2 ^ 64) by (apply Z.mul_le_mono_nonneg_r; lia). lia. }
  split; [exact S|]. unfold pow.
  replace (e =? -2147483648) with false by lia. replace (e =? 0) with false by lia.
  replace (Z.abs e =? -2147483648) with false by lia. replace (Z.abs e =? 0) with false by lia.
  rewrite Z.abs_involutive. change MAX_EXPONENTIAL with (2 ^ 19).
  replace (2 ^ 19 <=? Z.abs e) with false by lia. change ONE_Q64 with (2 ^ 64).
  change U128_MAX with (2 ^ 128 - 1) in *. replace (Z.abs e <? 0) with false by lia.
  destruct (2 ^ 64 <=? b) eqn:E.
  - replace (2 ^ 64 <=? (2 ^ 128 - 1) / b) with false by lia. cbv zeta beta iota.
    destruct (pow_step (Z.abs e) 0 ((2 ^ 128 - 1) / b) (2 ^ 64)); [|reflexivity].
    destruct (pow_bits 18 1 (Z.abs e) ((2 ^ 128 - 1) / b) z); [|reflexivity].
    destruct (z0 =? 0); [reflexivity|]. destruct (e <? 0); reflexivity.
  - rewrite E. cbv zeta beta iota.
    destruct (pow_step (Z.abs e) 0 b (2 ^ 64)); [|reflexivity].
    destruct (pow_bits 18 1 (Z.abs e) b z); [|reflexivity].
    destruct (z0 =? 0); [reflexivity|]. destruct (e <? 0); reflexivity.
Qed.

Theorem C36_pow_edges : forall b e,
  pow b 0 = Some (2 ^ 64) /\ (2 ^ 19 <= Z.abs e -> pow b e = None).
Proof.
  intros b e. split; [reflexivity|]. intros H. unfold pow.
  destruct (e =? -2147483648); [reflexivity|]. replace (e =? 0) with false by lia.
  change MAX_EXPONENTIAL with (2 ^ 19). replace (2 ^ 19 <=? Z.abs e) with true by lia. reflexivity.
Qed.

Example C36_reciprocal_case :
  pow (Q64 + Q64 / 100) 100 = Some 49895008478369174654 /\ pow (Q64 / 2) (-3) = Some 147573952589676412927.
Proof. vm_compute. split; reflexivity. Qed.

Print Assumptions C36_pow_reciprocal.
Print Assumptions C36_pow_edges.
Print Assumptions C35_sqrt_exact.
Print Assumptions C36_pow_accurate.
