(** * The inverse of the rate limiter's fee: from the amount net of fee back to the rate. *)
From Coq Require Import ZArith QArith List Bool Lia ZifyBool.
From Verif Require Import Base MathModel CurveModel FeeModel ConfigModel PoolModel TxModel
  SystemModel Spec Lib CurveProofs CurveLoops Potential CalcProofs ConfigProofs FeeProofs
  SwapProofs InvProofs InvOps InvReach PropSwap PropMath PropSched PropLimiter PropRate.
Import ListNotations.
Open Scope Z_scope.
#[local] Arguments Z.pow : simpl never.
#[local] Arguments Z.testbit : simpl never.

(** ** Convexity of the progressive fee *)
Lemma marginal_mono c i j k : 0 <= i -> j <= k -> marginal c i j <= marginal c i k.
Proof. intros I J. unfold marginal. assert (i * j <= i * k) by (apply Z.mul_le_mono_nonneg_l; lia). lia. Qed.

Lemma prog_step_lo c i x0 (n k : nat) : 0 <= i -> 0 < x0 ->
  progressive c i x0 n + Z.of_nat k * marginal c i (Z.of_nat n / x0) <= progressive c i x0 (n + k).
Proof.
  intros I X. induction k.
  - rewrite Nat.add_0_r. lia.
  - rewrite Nat.add_succ_r. cbn [progressive].
    assert (marginal c i (Z.of_nat n / x0) <= marginal c i (Z.of_nat (n + k) / x0)).
    { apply marginal_mono; [exact I|]. apply Z.div_le_mono; lia. }
    lia.
Qed.

Lemma prog_step_hi c i x0 (n k : nat) :
  progressive c i x0 (n + k) <= progressive c i x0 n + 990000000 * Z.of_nat k.
Proof.
  induction k.
  - rewrite Nat.add_0_r. lia.
  - rewrite Nat.add_succ_r. cbn [progressive]. unfold marginal. lia.
Qed.

Lemma prog_le_marg c i x0 (n : nat) : 0 <= i -> 0 < x0 ->
  progressive c i x0 n <= Z.of_nat n * marginal c i (Z.of_nat n / x0).
Proof.
  intros I X. induction n.
  - simpl. lia.
  - cbn [progressive].
    assert (marginal c i (Z.of_nat n / x0) <= marginal c i (Z.of_nat (S n) / x0)).
    { apply marginal_mono; [exact I|]. apply Z.div_le_mono; lia. }
    assert (Z.of_nat n * marginal c i (Z.of_nat n / x0) <= Z.of_nat n * marginal c i (Z.of_nat (S n) / x0))
      by (apply Z.mul_le_mono_nonneg_l; lia).
    lia.
Qed.

(** The exact fee on [n] units, in 1/1e9 of a unit. *)
Definition prog (b : base_fee) (n : Z) : Z :=
  progressive (bf_cliff b) (bf_first b * 100000) (bf_third b) (Z.to_nat n).
Definition marg (b : base_fee) (n : Z) : Z :=
  marginal (bf_cliff b) (bf_first b * 100000) (n / bf_third b).

Lemma lim_i b : limited b -> 100000 <= bf_first b * 100000 <= 999900000.
Proof. unfold limited. lia. Qed.

Lemma prog_bounds b n : limited b -> 0 <= n -> bf_cliff b * n <= prog b n <= 990000000 * n.
Proof.
  intros L N. pose proof (lim_i b L). unfold prog. unfold limited in L.
  pose proof (progressive_bounds (bf_cliff b) (bf_first b * 100000) (bf_third b) (Z.to_nat n)
                ltac:(lia) ltac:(lia) ltac:(lia)) as PB. rewrite Z2Nat.id in PB by lia. exact PB.
Qed.

Lemma prog_lo b n k : limited b -> 0 <= n -> 0 <= k -> prog b n + k * marg b n <= prog b (n + k).
Proof.
  intros L N K. unfold prog, marg. pose proof (lim_i b L). unfold limited in L.
  pose proof (prog_step_lo (bf_cliff b) (bf_first b * 100000) (bf_third b) (Z.to_nat n) (Z.to_nat k)
     ltac:(lia) ltac:(lia)) as P.
  rewrite !Z2Nat.id in P by lia. rewrite Z2Nat.inj_add by lia. exact P.
Qed.

Lemma prog_hi b n k : limited b -> 0 <= n -> 0 <= k -> prog b (n + k) <= prog b n + 990000000 * k.
Proof.
  intros L N K. unfold prog. rewrite Z2Nat.inj_add by lia.
  pose proof (prog_step_hi (bf_cliff b) (bf_first b * 100000) (bf_third b) (Z.to_nat n) (Z.to_nat k)) as P.
  rewrite Z2Nat.id in P by lia. exact P.
Qed.

(** The average rate grows with the amount. *)
Lemma prog_avg b x a : limited b -> 0 <= x -> x <= a -> a * prog b x <= x * prog b a.
Proof.
  intros L X A. pose proof (lim_i b L) as I.
  assert (M : prog b x <= x * marg b x).
  { unfold prog, marg. unfold limited in L.
    pose proof (prog_le_marg (bf_cliff b) (bf_first b * 100000) (bf_third b) (Z.to_nat x)
       ltac:(lia) ltac:(lia)) as P.
    rewrite Z2Nat.id in P by lia. exact P. }
  pose proof (prog_lo b x (a - x) L X ltac:(lia)) as P. replace (x + (a - x)) with a in P by ring.
  assert (x * (prog b x + (a - x) * marg b x) <= x * prog b a) by (apply Z.mul_le_mono_nonneg_l; lia).
  assert ((a - x) * prog b x <= (a - x) * (x * marg b x)) by (apply Z.mul_le_mono_nonneg_l; lia).
  lia.
Qed.

(** Up to the last step of the limiter the fee is a quadratic plus a correction that vanishes at
    the multiples of the reference amount. *)
Lemma prog_quad b m x : limited b -> 0 <= x <= (m + 1) * bf_third b ->
  bf_cliff b + bf_first b * 100000 * m <= 990000000 -> 0 <= m ->
  let x0 := bf_third b in let i := bf_first b * 100000 in
  2 * x0 * prog b x = 2 * bf_cliff b * x0 * x + i * (x * x) - i * x0 * x
                      + i * ((x mod x0) * (x0 - x mod x0)).
Proof.
  intros L X M M0 x0 i. pose proof (lim_i b L) as I. fold i in I, M. unfold limited in L. fold x0 in L, X.
  unfold prog. fold i x0. rewrite progressive_chunks by lia. rewrite Z2Nat.id by lia.
  set (c := bf_cliff b) in *. clearbody c i. 
  pose proof (Z.div_mod x x0 ltac:(lia)) as D. pose proof (Z.mod_pos_bound x x0 ltac:(lia)) as R.
  assert (K0 : 0 <= x / x0) by (apply Z.div_pos; lia).
  assert (KM : x / x0 <= m + 1).
  { apply Z.div_le_upper_bound; lia. }
  set (k := x / x0) in *. set (r := x mod x0) in *.
  assert (KR : k <= m \/ r = 0).
  { destruct (Z.eq_dec k (m + 1)) as [E|E]; [right|left; lia]. rewrite E in D. lia. }
  clearbody k r x0.
  pose proof (chunks_low c i (Z.to_nat k) ltac:(lia)) as CL. rewrite Z2Nat.id in CL by lia.
  assert (CC : 2 * chunks c i (Z.to_nat k) = 2 * c * k + i * (k * (k - 1))).
  { apply CL. destruct (Z.eq_dec k 0) as [->|NK]; [left; reflexivity|right].
    rewrite Nat2Z.inj_sub, Z2Nat.id by lia. change (Z.of_nat 1) with 1.
    assert (i * (k - 1) <= i * m) by (apply Z.mul_le_mono_nonneg_l; lia). lia. }
  assert (MG : r * marginal c i k = r * (c + i * k)).
  { destruct KR as [KR| ->]; [|reflexivity]. unfold marginal. rewrite Z.min_l; [reflexivity|].
    assert (i * k <= i * m) by (apply Z.mul_le_mono_nonneg_l; lia). lia. }
  rewrite MG. set (ch := chunks c i (Z.to_nat k)) in *. clearbody ch.
  replace (2 * x0 * (x0 * ch + r * (c + i * k))) with (x0 * x0 * (2 * ch) + 2 * x0 * (r * (c + i * k))) by ring.
  rewrite CC, D. ring.
Qed.

(** Rounded to whole units: the amount net of the fee. *)
Lemma rl_excl_bounds b n e : limited b -> 0 <= n -> rl_excluded b n = Ok e ->
  1000000000 * e <= 1000000000 * n - prog b n
  /\ 1000000000 * n - prog b n <= 1000000000 * e + n + 2000000000 /\ 0 <= e.
Proof.
  intros L N H. unfold rl_excluded in H. apply bind_ok in H. destruct H as (num & NU & H).
  apply bind_ok in H. destruct H as ([e' f] & E & H). apply Ok_inj in H. simpl in H. subst e'.
  unfold get_excluded_fee_amount in E. apply bind_ok in E. destruct E as (fee & F & E).
  apply bind_ok in E. destruct E as (ex & X & E). apply Ok_inj in E. injection E as -> ->.
  apply mul_div_cast_up in F. destruct F as (-> & _). apply ssub_ok in X. destruct X as (-> & X0).
  destruct (rl_included_inv b n num L ltac:(lia) NU) as (NE & NG).
  pose proof (prog_bounds b n L ltac:(lia)) as PB.
  change (progressive_fee b n) with (cdiv (prog b n) 1000000000) in NE.
  unfold FEE_DENOMINATOR in *. 
  assert (B : prog b n <= num * n <= prog b n + 1000000000 + n).
  { destruct (n <=? bf_third b) eqn:S.
    - assert (TT : prog b n = bf_cliff b * n).
      { unfold prog. unfold limited in L. pose proof (lim_i b L). rewrite progressive_small by lia.
        rewrite Z2Nat.id by lia. reflexivity. }
      subst num. lia.
    - assert (N1 : 1 <= n) by (unfold limited in L; lia). set (fee := cdiv (prog b n) 1000000000) in *.
      assert (prog b n <= fee * 1000000000) by (apply cdiv_ub; lia).
      assert (fee * 1000000000 < prog b n + 1000000000).
      { assert (K : fee - 1 < fee) by lia. unfold fee in K at 2. apply cdiv_gt in K; lia. }
      assert (fee * 1000000000 <= num * n) by (rewrite NE; apply cdiv_ub; lia).
      assert (num * n < fee * 1000000000 + n).
      { assert (K : num - 1 < num) by lia. rewrite NE in K at 2. apply cdiv_gt in K; lia. }
      lia. }
  assert (U : n * num <= cdiv (n * num) 1000000000 * 1000000000) by (apply cdiv_ub; lia).
  assert (W : cdiv (n * num) 1000000000 * 1000000000 < n * num + 1000000000).
  { assert (K : cdiv (n * num) 1000000000 - 1 < cdiv (n * num) 1000000000) by lia.
    apply cdiv_gt in K; lia. }
  lia.
Qed.

(** ** The quadratic formula *)
Lemma quad_root i y z T s e : 100000 <= i -> 0 < y -> 0 <= s -> 0 <= T -> 0 <= e ->
  s * s <= y * y - 4 * i * z < (s + 1) * (s + 1) ->
  z + e <= y * T - i * (T * T) -> 0 <= z -> y < 2 * i * e ->
  let x := (y - s) / (2 * i) in
  0 <= x /\ x < T /\ 4 * i * (y * x - i * (x * x)) <= 4 * i * z + 2 * y.
Proof.
  intros I Y S T0 E0 SQ ZT Z0 YE x.
  assert (IZ : 0 <= 4 * i * z) by (apply Z.mul_nonneg_nonneg; lia).
  assert (SY : s <= y).
  { destruct (Z_le_gt_dec s y) as [G|G]; auto. exfalso.
    assert (y * y < s * s) by (apply Z.mul_lt_mono_nonneg; lia). lia. }
  assert (X0 : 0 <= x) by (apply Z.div_pos; lia).
  assert (X1 : 2 * i * x <= y - s) by (apply Z.mul_div_le; lia).
  split; [exact X0|]. split.
  - destruct (Z_lt_ge_dec x T) as [G|G]; auto. exfalso.
    assert (2 * i * T <= 2 * i * x) by (apply Z.mul_le_mono_nonneg_l; lia).
    assert (Q : s * s <= (y - 2 * i * T) * (y - 2 * i * T)) by (apply Z.mul_le_mono_nonneg; lia).
    assert (QE : (y - 2 * i * T) * (y - 2 * i * T) = y * y - 4 * i * (y * T - i * (T * T))) by ring.
    assert (4 * i * (z + e) <= 4 * i * (y * T - i * (T * T))) by (apply Z.mul_le_mono_nonneg_l; lia).
    lia.
  - assert (Q : s * s <= (y - 2 * i * x) * (y - 2 * i * x)) by (apply Z.mul_le_mono_nonneg; lia).
    assert (QE : (y - 2 * i * x) * (y - 2 * i * x) = y * y - 4 * i * (y * x - i * (x * x))) by ring.
    lia.
Qed.

(** The largest amount below the last step, and what is left of it. *)
Lemma checked_inv b ce ci ov : limited b -> rl_checked_amounts b = Ok (ce, ci, ov) ->
  exists m, bf_cliff b + bf_first b * 100000 * m <= 990000000 /\ 0 <= m <= 9900
    /\ 1 <= ci <= (m + 1) * bf_third b /\ ci <= U64_MAX /\ rl_excluded b ci = Ok ce
    /\ (ov = false -> marg b ci = 990000000).
Proof.
  intros L H. unfold rl_checked_amounts in H. destruct (max_index b L) as (m & MI & M0 & M1 & M2).
  rewrite MI in H. cbn [bind] in H. cbv zeta in H.
  pose proof (Z.mul_le_mono_nonneg 1 (m + 1) 1 (bf_third b) ltac:(lia) ltac:(lia) ltac:(lia)
    ltac:(unfold limited in L; lia)) as T1.
  exists m. split; [exact M1|]. split; [exact M0|].
  destruct ((m + 1) * bf_third b <=? U64_MAX) eqn:E; apply bind_ok in H; destruct H as (o & X & H);
  apply Ok_inj in H; inversion H; subst; clear H.
  - split; [lia|]. split; [lia|]. split; [exact X|]. intros _. unfold marg, marginal.
    rewrite Z.div_mul by (unfold limited in L; lia). apply Z.min_r. apply M2. lia.
  - split; [unfold U64_MAX in *; lia|]. split; [lia|]. split; [exact X|]. discriminate.
Qed.

Lemma included_inv num ex incl fee : 0 <= num <= 990000000 -> 0 <= ex ->
  get_included_fee_amount num ex = Ok (incl, fee) ->
  ex * 1000000000 <= incl * (1000000000 - num)
  /\ incl * (1000000000 - num) < ex * 1000000000 + (1000000000 - num) /\ 0 <= incl <= U64_MAX.
Proof.
  intros N X H. unfold get_included_fee_amount in H. apply bind_ok in H. destruct H as (d & D & H).
  apply ssub_ok in D. destruct D as (-> & _). apply bind_ok in H. destruct H as (i & I & H).
  apply bind_ok in H. destruct H as (f & F & H). apply Ok_inj in H. injection H as -> ->.
  apply mul_div_cast_up in I. destruct I as (-> & I1 & I2). unfold FEE_DENOMINATOR in *.
  assert (ex * 1000000000 <= cdiv (ex * 1000000000) (1000000000 - num) * (1000000000 - num))
    by (apply cdiv_ub; lia).
  assert (K : cdiv (ex * 1000000000) (1000000000 - num) - 1 < cdiv (ex * 1000000000) (1000000000 - num)) by lia.
  apply cdiv_gt in K; [|lia]. 
  assert (0 <= cdiv (ex * 1000000000) (1000000000 - num)) by (apply cdiv_nonneg; lia). lia.
Qed.

(** Below the last step: the root found, and the rate of the step it lies in. *)
Lemma below_full b ce ci ov ex : limited b -> rl_checked_amounts b = Ok (ce, ci, ov) -> 0 <= ex -> ex < ce ->
  let x0 := bf_third b in let i := bf_first b * 100000 in let c := bf_cliff b in
  let y := 2 * FEE_DENOMINATOR * x0 + i * x0 - 2 * c * x0 in
  let z := 2 * ex * FEE_DENOMINATOR * x0 in
  w256 y = y /\ exists s, (0 <= s /\ s * s <= y * y - 4 * i * z) /\ sqrt_u256 (w256 (y * y - 4 * i * z)) = Some s
    /\ w256 (y - s) = y - s
    /\ let in1 := (y - s) / (2 * i) in
       0 <= in1 < ci /\ c + i * (in1 / x0) = marg b in1 /\ c <= c + i * (in1 / x0) <= 990000000
       /\ (forall e, rl_excluded b in1 = Ok e -> e <= ex).
Proof.
  intros L H X0 X x0 i c y z. destruct (checked_inv b ce ci ov L H) as (m & M1 & M0 & CI & CU & CE & _).
  destruct (rl_excl_bounds b ci ce L ltac:(lia) CE) as (CB & _).
  pose proof (prog_quad b m ci L ltac:(lia) M1 ltac:(lia)) as PQ. cbv zeta in PQ.
  pose proof (lim_i b L) as I. unfold limited in L. pose proof L as (LC & _ & _ & LX).
  pose proof (Z.mod_pos_bound ci x0 ltac:(unfold x0; lia)) as RM.
  fold x0 i c in PQ, CI, M1, I, LC, LX.
  assert (RN : 0 <= i * ((ci mod x0) * (x0 - ci mod x0)))
    by (apply Z.mul_nonneg_nonneg; [lia|apply Z.mul_nonneg_nonneg; lia]).
  unfold FEE_DENOMINATOR in *.
  assert (YE : y = x0 * (2000000000 + i - 2 * c)) by (unfold y; ring).
  assert (Y0 : 0 < y) by (rewrite YE; apply Z.mul_pos_pos; lia).
  assert (YU : y <= x0 * 3000000000) by (rewrite YE; apply Z.mul_le_mono_nonneg_l; lia).
  assert (U64 : U64_MAX = 18446744073709551615) by reflexivity.
  assert (YU' : y <= 60000000000000000000000000000) by lia.
  assert (Z0 : 0 <= z) by (unfold z; apply Z.mul_nonneg_nonneg; lia).
  set (e := 2 * 1000000000 * x0).
  assert (ZT : z + e <= y * ci - i * (ci * ci)).
  { assert (2 * x0 * (1000000000 * (ex + 1)) <= 2 * x0 * (1000000000 * ci - prog b ci))
      by (apply Z.mul_le_mono_nonneg_l; lia).
    unfold z, e. replace (y * ci) with (2 * x0 * 1000000000 * ci - 2 * c * x0 * ci + i * x0 * ci) by (unfold y; ring).
    lia. }
  assert (D0 : 0 <= y * y - 4 * i * z).
  { assert (QE : 0 <= (y - 2 * i * ci) * (y - 2 * i * ci)) by apply Z.square_nonneg.
    replace ((y - 2 * i * ci) * (y - 2 * i * ci)) with (y * y - 4 * i * (y * ci - i * (ci * ci))) in QE by ring.
    assert (4 * i * (z + e) <= 4 * i * (y * ci - i * (ci * ci))) by (apply Z.mul_le_mono_nonneg_l; lia).
    assert (0 <= 4 * i * e) by (apply Z.mul_nonneg_nonneg; unfold e; lia). lia. }
  assert (D1 : y * y - 4 * i * z <= 3600000000000000000000000000000000000000000000000000000000).
  { assert (0 <= 4 * i * z) by (apply Z.mul_nonneg_nonneg; lia).
    assert (y * y <= 60000000000000000000000000000 * 60000000000000000000000000000)
      by (apply Z.mul_le_mono_nonneg; lia). lia. }
  assert (W : forall t, 0 <= t <= 3600000000000000000000000000000000000000000000000000000000 -> w256 t = t).
  { intros t T. unfold w256, Q256. apply Z.mod_small. lia. }
  split; [apply W; lia|].
  rewrite (W (y * y - 4 * i * z)) by lia.
  destruct (C35_sqrt_exact (y * y - 4 * i * z)) as (s & S1 & S2 & S3).
  { unfold U256_MAX. split; [exact D0|]. eapply Z.le_trans; [exact D1|]. vm_compute. discriminate. }
  exists s. split; [split; [exact S2|exact (proj1 S3)]|]. split; [exact S1|].
  assert (YE2 : y < 2 * i * e).
  { unfold e. assert (100000 * (4000000000 * x0) <= i * (4000000000 * x0)) by (apply Z.mul_le_mono_nonneg_r; lia).
    lia. }
  destruct (quad_root i y z ci s e ltac:(lia) Y0 S2 ltac:(lia) ltac:(unfold e; lia) S3 ZT Z0 YE2) as (R1 & R2 & R3).
  cbv zeta in *. set (x := (y - s) / (2 * i)) in *.
  assert (SY : s <= y).
  { destruct (Z_le_gt_dec s y) as [G|G]; auto. exfalso.
    assert (y * y < s * s) by (apply Z.mul_lt_mono_nonneg; lia).
    assert (0 <= 4 * i * z) by (apply Z.mul_nonneg_nonneg; lia). lia. }
  split; [apply W; lia|]. split; [lia|].
  assert (K0 : 0 <= x / x0) by (apply Z.div_pos; lia).
  assert (KM : x / x0 <= m).
  { assert (x / x0 < m + 1); [|lia]. apply Z.div_lt_upper_bound; lia. }
  assert (IK : i * (x / x0) <= i * m) by (apply Z.mul_le_mono_nonneg_l; lia).
  assert (IK0 : 0 <= i * (x / x0)) by (apply Z.mul_nonneg_nonneg; lia).
  split; [unfold marg, marginal; fold x0 i c; rewrite Z.min_l; lia|].
  split; [lia|].
  intros e1 E1. destruct (rl_excl_bounds b x e1 L R1 E1) as (EB & _).
  pose proof (prog_quad b m x L ltac:(fold x0; lia) M1 ltac:(lia)) as PX. cbv zeta in PX. fold x0 i c in PX.
  pose proof (Z.mod_pos_bound x x0 ltac:(lia)) as RX.
  assert (RN' : 0 <= i * ((x mod x0) * (x0 - x mod x0)))
    by (apply Z.mul_nonneg_nonneg; [lia|apply Z.mul_nonneg_nonneg; lia]).
  destruct (Z_le_gt_dec e1 ex) as [G|G]; auto. exfalso.
  assert (A1 : 2 * x0 * (1000000000 * (ex + 1)) <= 2 * x0 * (1000000000 * x - prog b x))
    by (apply Z.mul_le_mono_nonneg_l; lia).
  assert (A2 : z + e <= y * x - i * (x * x)).
  { unfold z, e. replace (y * x) with (2 * x0 * 1000000000 * x - 2 * c * x0 * x + i * x0 * x) by (unfold y; ring).
    lia. }
  assert (4 * i * (z + e) <= 4 * i * (y * x - i * (x * x))) by (apply Z.mul_le_mono_nonneg_l; lia).
  lia.
Qed.

Lemma below b ce ci ov ex : limited b -> rl_checked_amounts b = Ok (ce, ci, ov) -> 0 <= ex -> ex < ce ->
  let x0 := bf_third b in let i := bf_first b * 100000 in let c := bf_cliff b in
  let y := 2 * FEE_DENOMINATOR * x0 + i * x0 - 2 * c * x0 in
  let z := 2 * ex * FEE_DENOMINATOR * x0 in
  w256 y = y /\ exists s, sqrt_u256 (w256 (y * y - 4 * i * z)) = Some s
    /\ w256 (y - s) = y - s
    /\ let in1 := (y - s) / (2 * i) in
       0 <= in1 < ci /\ c + i * (in1 / x0) = marg b in1 /\ c <= c + i * (in1 / x0) <= 990000000
       /\ (forall e, rl_excluded b in1 = Ok e -> e <= ex).
Proof.
  intros L H X0 X. destruct (below_full b ce ci ov ex L H X0 X) as (A & s & _ & B). split; [exact A|]. exists s. exact B.
Qed.

(** A step of [k] more units at rate [r], charged upwards from an amount net of fee. *)
Lemma step_net b n e rem k r : limited b -> 0 <= n -> 0 <= k -> r = marg b n ->
  rl_excluded b n = Ok e ->
  k * (1000000000 - r) < rem * 1000000000 + (1000000000 - r) -> 0 <= r ->
  1000000000 * (n + k) - prog b (n + k) <= 1000000000 * (e + rem) + n + 3000000000.
Proof.
  intros L N K R E KB R0. destruct (rl_excl_bounds b n e L N E) as (_ & EB & _).
  pose proof (prog_lo b n k L N K) as P. rewrite <- R in P. lia.
Qed.

(** What the inverse returns: the cliff rate, or the average rate of an amount whose exact net is
    at most [ex] plus the rounding. *)
Lemma inverse_bounds b ex num : limited b -> 0 <= ex -> rl_num_excluded b ex = Ok num ->
  num = bf_cliff b \/
  exists incl, ex <= incl <= U64_MAX /\ 1 <= incl /\ num * incl <= (incl - ex) * 1000000000 + incl
    /\ 1000000000 * incl - prog b incl <= 1000000000 * ex + incl + 3000000000.
Proof.
  intros L X H. unfold rl_num_excluded in H. pose proof (lim_i b L) as I.
  assert (F : 0 <= bf_first b <= 65535) by (unfold limited in L; lia).
  pose proof L as (LC & _ & _ & LX).
  apply bind_ok in H. destruct H as (exr & XR & H). destruct (ex <=? exr) eqn:EX; [left; apply Ok_inj in H; lia|].
  right. apply bind_ok in H. destruct H as ([[ce ci] ov] & C & H).
  destruct (checked_inv b ce ci ov L C) as (m & M1 & M0 & CI & CU & CE & OV).
  destruct (ex =? ce) eqn:EC.
  { assert (ex = ce) by lia. subst ce. exists ci.
    destruct (rl_excl_bounds b ci ex L ltac:(lia) CE) as (B1 & B2 & B3).
    unfold rl_excluded in CE. rewrite H in CE. cbn [bind] in CE.
    apply bind_ok in CE. destruct CE as ([e f] & E & CE). apply Ok_inj in CE. simpl in CE. subst e.
    unfold get_excluded_fee_amount in E. apply bind_ok in E. destruct E as (fee & FE & E).
    apply bind_ok in E. destruct E as (e2 & XX & E). apply Ok_inj in E. injection E as -> ->.
    apply mul_div_cast_up in FE. destruct FE as (FE & _). apply ssub_ok in XX. destruct XX as (-> & XX).
    pose proof (cdiv_ub (ci * num) 1000000000 ltac:(lia)) as U. unfold FEE_DENOMINATOR in FE.
    rewrite <- FE in U. 
    assert (0 <= f). { rewrite FE. apply cdiv_nonneg; [|lia]. apply Z.mul_nonneg_nonneg; [lia|].
      apply rl_included_inv in H; [lia|exact L|lia]. }
    lia. }
  apply bind_ok in H. destruct H as (incl & IN & H). apply bind_ok in H. destruct H as (fee & FE & H).
  apply ssub_ok in FE. destruct FE as (-> & FE).
  apply bind_ok in H. destruct H as (n & NE & H). apply bind_ok in H. destruct H as (u & _ & H).
  apply Ok_inj in H. subst n. apply mul_div_cast_up in NE. destruct NE as (NE & IZ & _). unfold FEE_DENOMINATOR in NE.
  assert (NB : 1 <= incl -> num * incl <= (incl - ex) * 1000000000 + incl).
  { intros J. assert (K : num - 1 < num) by lia. rewrite NE in K at 2. apply cdiv_gt in K; lia. }
  exists incl.
  assert (G : incl <= U64_MAX /\ 1000000000 * incl - prog b incl <= 1000000000 * ex + incl + 3000000000).
  { destruct (ex <? ce) eqn:LT.
    - rewrite inc_numerator in IN by exact F. cbn [bind] in IN. cbv zeta in IN.
      destruct (below b ce ci ov ex L C X ltac:(lia)) as (WY & s & SQ & WS & IB & MG & RB & EB).
      rewrite WY, SQ in IN. cbn [ok_or bind] in IN. rewrite WS in IN.
      set (in1 := (2 * FEE_DENOMINATOR * bf_third b + bf_first b * 100000 * bf_third b
                   - 2 * bf_cliff b * bf_third b - s) / (2 * (bf_first b * 100000))) in *.
      clearbody in1.
      rewrite require_true in IN by lia. cbn [bind] in IN.
      rewrite sdiv_intro in IN by lia. cbn [bind] in IN.
      rewrite scast_intro in IN by lia. cbn [bind] in IN.
      apply bind_ok in IN. destruct IN as (ex1 & E1 & IN). apply bind_ok in IN. destruct IN as (rem & RE & IN).
      apply ssub_ok in RE. destruct RE as (-> & RE).
      rewrite scast_intro in IN by (unfold U64_MAX; lia). cbn [bind] in IN.
      apply bind_ok in IN. destruct IN as ([k f] & KE & IN). cbn [fst] in IN.
      apply scast_ok in IN. destruct IN as (-> & IU).
      apply included_inv in KE; [|lia|lia]. destruct KE as (_ & K2 & K3).
      pose proof (step_net b in1 ex1 (ex - ex1) k _ L ltac:(lia) ltac:(lia) MG E1 K2 ltac:(lia)) as SN.
      lia.
    - apply bind_ok in IN. destruct IN as (u1 & OVF & IN). apply require_ok in OVF.
      assert (OV' : ov = false) by (destruct ov; [discriminate|reflexivity]).
      apply bind_ok in IN. destruct IN as (rem & RE & IN). apply ssub_ok in RE. destruct RE as (-> & RE).
      apply bind_ok in IN. destruct IN as ([k f] & KE & IN). cbn [fst] in IN.
      apply sadd_ok in IN. destruct IN as (-> & IU).
      unfold MAX_FEE_NUMERATOR in KE. apply included_inv in KE; [|lia|lia]. destruct KE as (_ & K2 & K3).
      pose proof (step_net b ci ce (ex - ce) k 990000000 L ltac:(lia) ltac:(lia) (eq_sym (OV OV')) CE K2 ltac:(lia)) as SN.
      rewrite (Z.add_comm k ci). lia. }
  destruct (rl_excl_bounds b (bf_third b) exr L ltac:(lia) XR) as (_ & _ & EXR).
  split; [lia|]. split; [lia|]. split; [apply NB; lia|]. lia.
Qed.

(** ** The inverse never fails on an amount that is the net of some payment *)
Lemma rl_excl_exists b n : limited b -> 0 <= n <= U64_MAX ->
  exists e, rl_excluded b n = Ok e /\ 0 <= e <= n.
Proof.
  intros L N. unfold rl_excluded. rewrite rl_included_value by assumption. cbn [bind].
  set (num := if n <=? bf_third b then _ else _).
  assert (NB : 0 <= num <= 1000000000).
  { unfold num. pose proof L as (LC & _ & _ & LX). destruct (n <=? bf_third b) eqn:S; [lia|].
    destruct (progressive_fee_bounds b n L ltac:(lia)) as (_ & B).
    split; [apply cdiv_nonneg; lia|apply cdiv_le; lia]. }
  clearbody num. unfold get_excluded_fee_amount, FEE_DENOMINATOR.
  assert (0 <= n * num) by (apply Z.mul_nonneg_nonneg; lia).
  assert (n * num <= n * 1000000000) by (apply Z.mul_le_mono_nonneg_l; lia).
  assert (cdiv (n * num) 1000000000 <= n) by (apply cdiv_le; lia).
  assert (0 <= cdiv (n * num) 1000000000) by (apply cdiv_nonneg; lia).
  rewrite mul_div_cast_up_intro; unfold U64_MAX, U128_MAX in *; try lia.
  cbn [bind]. rewrite ssub_intro by lia. cbn [bind fst]. eexists. split; [reflexivity|]. lia.
Qed.

Lemma incl_le b ex a incl : limited b -> 0 <= a -> 0 <= incl ->
  1000000000 * ex <= 1000000000 * a - prog b a ->
  1000000000 * incl - prog b incl <= 1000000000 * ex + incl + 3000000000 ->
  incl * 9999999 <= a * 10000000 + 3000000000.
Proof.
  intros L A I EX IN. destruct (Z_le_gt_dec incl a) as [G|G]; [lia|].
  pose proof (prog_hi b a (incl - a) L A ltac:(lia)) as P. replace (a + (incl - a)) with incl in P by ring. lia.
Qed.

Lemma included_intro num ex : 0 <= num <= 990000000 -> 0 <= ex <= U64_MAX ->
  cdiv (ex * 1000000000) (1000000000 - num) <= U64_MAX ->
  exists fee, get_included_fee_amount num ex = Ok (cdiv (ex * 1000000000) (1000000000 - num), fee)
    /\ ex <= cdiv (ex * 1000000000) (1000000000 - num)
    /\ fee = cdiv (ex * 1000000000) (1000000000 - num) - ex.
Proof.
  intros N X U. unfold get_included_fee_amount, FEE_DENOMINATOR. rewrite ssub_intro by lia. cbn [bind].
  rewrite mul_div_cast_up_intro; unfold U64_MAX, U128_MAX in *; try lia. cbn [bind].
  assert (I3 : ex <= cdiv (ex * 1000000000) (1000000000 - num)).
  { destruct (Z.eq_dec ex 0) as [->|NZ]; [apply cdiv_nonneg; lia|].
    assert (ex - 1 < cdiv (ex * 1000000000) (1000000000 - num)); [|lia]. apply cdiv_gt; nia. }
  rewrite ssub_intro by lia. cbn [bind]. eexists. split; [reflexivity|]. auto.
Qed.

(** The two facts about a step of [cdiv (rem * 1e9) (1e9 - r)] units at rate [r]. *)
Lemma step_exists b n e rem ex a r : limited b -> 0 <= n <= U64_MAX -> 0 <= a <= 18446742000000000000 ->
  rl_excluded b n = Ok e -> rem = ex - e -> 0 <= rem -> 0 <= ex ->
  r = marg b n -> bf_cliff b <= r <= 990000000 ->
  1000000000 * ex <= 1000000000 * a - prog b a ->
  exists k f, get_included_fee_amount r rem = Ok (k, f) /\ n + k <= U64_MAX /\ 0 <= k /\ ex <= n + k
    /\ bf_cliff b * (n + k) <= (n + k - ex) * 1000000000.
Proof.
  intros L N A E -> RM X R RB NA. pose proof L as (LC & _ & _ & LX).
  destruct (rl_excl_bounds b n e L ltac:(lia) E) as (B1 & B2 & B3).
  pose proof (prog_bounds b n L ltac:(lia)) as PB. pose proof (prog_bounds b a L ltac:(lia)) as PA.
  assert (0 <= bf_cliff b * a) by (apply Z.mul_nonneg_nonneg; lia).
  assert (0 <= bf_cliff b * n) by (apply Z.mul_nonneg_nonneg; lia).
  set (k := cdiv ((ex - e) * 1000000000) (1000000000 - r)).
  assert (K0 : 0 <= k) by (apply cdiv_nonneg; lia).
  assert (K1 : k * (1000000000 - r) < (ex - e) * 1000000000 + (1000000000 - r)).
  { assert (K : k - 1 < k) by lia. unfold k in K at 2. apply cdiv_gt in K; lia. }
  assert (K2 : (ex - e) * 1000000000 <= k * (1000000000 - r)) by (apply cdiv_ub; lia).
  pose proof (step_net b n e (ex - e) k r L ltac:(lia) K0 R E K1 ltac:(lia)) as SN.
  replace (e + (ex - e)) with ex in SN by ring.
  assert (IL : (n + k) * 9999999 <= a * 10000000 + 3000000000).
  { eapply incl_le; eauto; lia. }
  assert (U64 : U64_MAX = 18446744073709551615) by reflexivity.
  destruct (included_intro r (ex - e) ltac:(lia) ltac:(lia) ltac:(fold k; lia)) as (f & GE & KE & _).
  fold k in GE, KE. exists k, f. split; [exact GE|]. split; [lia|]. split; [lia|].
  assert (bf_cliff b * k <= r * k) by (apply Z.mul_le_mono_nonneg_r; lia). lia.
Qed.

Lemma inverse_exists b ex a : limited b -> 0 <= ex -> 0 <= a <= 18446742000000000000 ->
  1000000000 * ex <= 1000000000 * a - prog b a ->
  exists num, rl_num_excluded b ex = Ok num /\ bf_cliff b <= num.
Proof.
  intros L X A NA. assert (F : 0 <= bf_first b <= 65535) by (unfold limited in L; lia).
  assert (U64 : U64_MAX = 18446744073709551615) by reflexivity.
  pose proof (lim_i b L) as I. pose proof L as (LC & _ & _ & LX).
  pose proof (prog_bounds b a L ltac:(lia)) as PA.
  assert (0 <= bf_cliff b * a) by (apply Z.mul_nonneg_nonneg; lia).
  unfold rl_num_excluded. destruct (rl_excl_exists b (bf_third b) L ltac:(lia)) as (exr & XR & XR0).
  rewrite XR. cbn [bind]. destruct (ex <=? exr) eqn:EX; [eexists; split; [reflexivity|lia]|].
  assert (C : exists ce ci ov, rl_checked_amounts b = Ok (ce, ci, ov) /\ (ov = true -> ci = U64_MAX)).
  { unfold rl_checked_amounts. destruct (max_index b L) as (m & MI & M0 & M1 & M2). rewrite MI. cbn [bind]. cbv zeta.
    assert (0 <= (m + 1) * bf_third b) by (apply Z.mul_nonneg_nonneg; lia).
    destruct ((m + 1) * bf_third b <=? U64_MAX) eqn:E.
    - destruct (rl_excl_exists b ((m + 1) * bf_third b) L ltac:(lia)) as (e & -> & _). cbn [bind].
      do 3 eexists. split; [reflexivity|discriminate].
    - destruct (rl_excl_exists b U64_MAX L ltac:(lia)) as (e & -> & _). cbn [bind].
      do 3 eexists. split; [reflexivity|reflexivity]. }
  destruct C as (ce & ci & ov & C & OVU). rewrite C. cbn [bind].
  destruct (checked_inv b ce ci ov L C) as (m & M1 & M0 & CI & CU & CE & OV).
  destruct (ex =? ce) eqn:EC.
  { rewrite rl_included_value by (exact L || lia). eexists. split; [reflexivity|].
    pose proof (rl_included_value b ci L ltac:(lia)) as V. apply rl_included_inv in V; [lia|exact L|lia]. }
  assert (G : forall incl, 1 <= incl <= U64_MAX -> ex <= incl -> bf_cliff b * incl <= (incl - ex) * 1000000000 ->
     exists num, (do fee <- ssub incl ex ;;
      do num <- safe_mul_div_cast_u64 U64_MAX fee FEE_DENOMINATOR incl Up ;;
      do _ <- require (bf_cliff b <=? num) EUndeterminedError ;; Ok num) = Ok num /\ bf_cliff b <= num).
  { intros incl I1 I2 I3. rewrite ssub_intro by lia. cbn [bind]. unfold FEE_DENOMINATOR.
    assert (cdiv ((incl - ex) * 1000000000) incl <= 1000000000) by (apply cdiv_le; lia).
    assert (0 <= cdiv ((incl - ex) * 1000000000) incl) by (apply cdiv_nonneg; lia).
    rewrite mul_div_cast_up_intro; unfold U128_MAX; try lia. cbn [bind].
    assert (bf_cliff b - 1 < cdiv ((incl - ex) * 1000000000) incl) by (apply cdiv_gt; lia).
    rewrite require_true by lia. cbn [bind]. eexists. split; [reflexivity|]. lia. }
  destruct (ex <? ce) eqn:LT.
  - rewrite inc_numerator by exact F. cbn [bind]. cbv zeta.
    destruct (below b ce ci ov ex L C X ltac:(lia)) as (WY & s & SQ & WS & IB & MG & RB & EB).
    rewrite WY, SQ. cbn [ok_or bind]. rewrite WS.
    set (in1 := (2 * FEE_DENOMINATOR * bf_third b + bf_first b * 100000 * bf_third b
                   - 2 * bf_cliff b * bf_third b - s) / (2 * (bf_first b * 100000))) in *.
    clearbody in1.
    rewrite require_true by lia. cbn [bind]. rewrite sdiv_intro by lia. cbn [bind].
    rewrite scast_intro by lia. cbn [bind].
    destruct (rl_excl_exists b in1 L ltac:(lia)) as (ex1 & E1 & EB1). rewrite E1. cbn [bind].
    specialize (EB _ E1). rewrite ssub_intro by lia. cbn [bind].
    rewrite scast_intro by lia. cbn [bind].
    destruct (step_exists b in1 ex1 (ex - ex1) ex a _ L ltac:(lia) A E1 eq_refl ltac:(lia) X MG RB NA)
      as (k & f & KE & K1 & K2 & K3 & K4).
    rewrite KE. cbn [bind fst]. rewrite scast_intro by lia. cbn [bind]. apply G; lia.
  - assert (OVF : ov = false).
    { destruct ov; [|reflexivity]. exfalso. rewrite OVU in * by reflexivity.
      destruct (rl_excl_bounds b U64_MAX ce L ltac:(lia) CE) as (_ & B & _).
      pose proof (prog_hi b a (U64_MAX - a) L ltac:(lia) ltac:(lia)) as P.
      replace (a + (U64_MAX - a)) with U64_MAX in P by ring. lia. }
    subst ov. cbn [negb]. change (require true EMathOverflow) with (Ok tt : res unit). cbn [bind].
    rewrite ssub_intro by lia. cbn [bind].
    destruct (step_exists b ci ce (ex - ce) ex a 990000000 L ltac:(lia) A CE eq_refl ltac:(lia) X
      (eq_sym (OV eq_refl)) ltac:(lia) NA) as (k & f & KE & K1 & K2 & K3 & K4).
    unfold MAX_FEE_NUMERATOR. rewrite KE. cbn [bind fst]. rewrite sadd_intro by lia. cbn [bind].
    rewrite (Z.add_comm k ci). apply G; lia.
Qed.

(** ** How far the round trip can overshoot *)
Lemma rl_num_ge b n num : limited b -> 0 <= n -> rl_num_included b n = Ok num ->
  prog b n <= n * num /\ bf_cliff b <= num.
Proof.
  intros L N H. destruct (rl_included_inv b n num L N H) as (E & G). split; [|exact G].
  change (progressive_fee b n) with (cdiv (prog b n) 1000000000) in E.
  destruct (n <=? bf_third b) eqn:S.
  - unfold prog. pose proof L as (LC & _ & _ & LX). rewrite progressive_small by lia. rewrite Z2Nat.id by lia.
    subst num. lia.
  - assert (N1 : 1 <= n) by (unfold limited in L; lia).
    assert (prog b n <= cdiv (prog b n) 1000000000 * 1000000000) by (apply cdiv_ub; lia).
    assert (cdiv (prog b n) 1000000000 * 1000000000 <= num * n) by (rewrite E; apply cdiv_ub; lia). lia.
Qed.

Lemma round_trip b v a num0 ex num paid : limited b -> 0 <= v -> 0 <= a -> 0 <= ex ->
  rl_num_included b a = Ok num0 -> rl_num_excluded b ex = Ok num ->
  let t0 := Z.min 990000000 (num0 + v) in let t := Z.min 990000000 (num + v) in
  1000000000 * ex <= a * (1000000000 - t0) ->
  paid * (1000000000 - t) < ex * 1000000000 + 1000000000 ->
  paid <= a + a / 90000 + 31000 /\ (v = 0 -> paid <= a + a / 4000000 + 500).
Proof.
  intros L V A X N0 N1 t0 t NA PD.
  destruct (rl_num_ge b a num0 L A N0) as (G0 & C0). pose proof L as (LC & _ & _ & LX).
  assert (Q1 : 0 <= a / 90000) by (apply Z.div_pos; lia).
  assert (Q2 : a < 90000 * (a / 90000 + 1)) by (pose proof (Z.mul_succ_div_gt a 90000); lia).
  assert (Q3 : 0 <= a / 4000000) by (apply Z.div_pos; lia).
  assert (Q4 : a < 4000000 * (a / 4000000 + 1)) by (pose proof (Z.mul_succ_div_gt a 4000000); lia).
  assert (D : 10000000 <= 1000000000 - t) by (unfold t; lia).
  destruct (Z_le_gt_dec t t0) as [TT|TT].
  { assert (a * (1000000000 - t0) <= a * (1000000000 - t)) by (apply Z.mul_le_mono_nonneg_l; lia).
    assert (paid < a + 100); [|lia]. apply (Z.mul_lt_mono_pos_r (1000000000 - t)); lia. }
  assert (T0 : t0 = num0 + v) by (unfold t0 in *; unfold t in TT; lia).
  assert (TN : t <= num + v) by (unfold t; lia).
  destruct (inverse_bounds b ex num L X N1) as [E|(incl & IB & I1 & NI & NN)].
  { exfalso. lia. }
  assert (NA' : 1000000000 * ex <= 1000000000 * a - prog b a).
  { assert (a * num0 <= a * t0) by (apply Z.mul_le_mono_nonneg_l; lia). lia. }
  pose proof (incl_le b ex a incl L A ltac:(lia) NA' NN) as IL.
  split.
  - destruct (Z_le_gt_dec paid (a + 100)) as [PA|PA]; [lia|].
    assert (STEP : (paid - a - 100) * 10000000 <= a * num - a * num0).
    { assert ((paid - a - 100) * 10000000 <= (paid - a - 100) * (1000000000 - t)) by (apply Z.mul_le_mono_nonneg_l; lia).
      assert (a * t <= a * (num + v)) by (apply Z.mul_le_mono_nonneg_l; lia).
      rewrite T0 in NA. lia. }
    destruct (Z_le_gt_dec a incl) as [AI|AI].
    + assert (0 <= num) by lia.
      assert (a * num <= incl * num) by (apply Z.mul_le_mono_nonneg_r; lia).
      pose proof (prog_hi b a (incl - a) L A ltac:(lia)) as P. replace (a + (incl - a)) with incl in P by ring.
      lia.
    + destruct (Z_le_gt_dec (100 * incl) a) as [SM|SM].
      * assert ((paid - 100) * 10000000 <= (paid - 100) * (1000000000 - t)) by (apply Z.mul_le_mono_nonneg_l; lia).
        lia.
      * assert (AV : a * prog b incl <= incl * prog b a) by (apply prog_avg; lia || exact L).
        assert (M1 : a * (num * incl) <= a * (prog b incl + 2 * incl + 3000000000)) by (apply Z.mul_le_mono_nonneg_l; lia).
        assert (M2 : incl * (a * num) <= incl * (prog b a + 2 * a + 300000000000)) by lia.
        assert (M3 : a * num <= prog b a + 2 * a + 300000000000).
        { apply (Z.mul_le_mono_pos_l _ _ incl); lia. }
        lia.
  - intros ->. assert (TN' : t <= num) by lia.
    destruct (Z_le_gt_dec paid (incl + 100)) as [PA|PA]; [lia|].
    assert ((paid - incl - 100) * 10000000 <= (paid - incl - 100) * (1000000000 - t)) by (apply Z.mul_le_mono_nonneg_l; lia).
    assert (t * incl <= num * incl) by (apply Z.mul_le_mono_nonneg_r; lia).
    lia.
Qed.

(** ** The inverse does not undercharge either *)
Lemma prog_same b x k : limited b -> 0 <= x -> 0 <= k -> x + k <= (x / bf_third b + 1) * bf_third b ->
  prog b (x + k) = prog b x + k * marg b x.
Proof.
  intros L X K B. pose proof L as (LC & _ & _ & LX).
  pose proof (Z.div_mod x (bf_third b) ltac:(lia)) as D. pose proof (Z.mod_pos_bound x (bf_third b) ltac:(lia)) as R.
  assert (Q0 : 0 <= x / bf_third b) by (apply Z.div_pos; lia).
  revert B. revert k K. apply (natlike_ind (fun k => x + k <= (x / bf_third b + 1) * bf_third b ->
     prog b (x + k) = prog b x + k * marg b x)).
  - intros _. rewrite Z.add_0_r. lia.
  - intros k K IH B. unfold Z.succ. rewrite Z.add_assoc. unfold prog at 1.
    replace (Z.to_nat (x + k + 1)) with (S (Z.to_nat (x + k))) by lia. cbn [progressive].
    change (progressive (bf_cliff b) (bf_first b * 100000) (bf_third b) (Z.to_nat (x + k))) with (prog b (x + k)).
    rewrite Z2Nat.id by lia. rewrite IH by lia.
    assert (Q : (x + k) / bf_third b = x / bf_third b).
    { symmetry. apply Z.div_unique with (r := x mod bf_third b + k); lia. }
    rewrite Q. unfold marg. lia.
Qed.

(** The root is in the step that contains the solution. *)
Lemma quad_root_low i y z T s : 0 < i -> 0 <= s ->
  s * s <= y * y - 4 * i * z -> (y - s) / (2 * i) < T -> 0 <= y - 2 * i * T + s ->
  z <= y * T - i * (T * T).
Proof.
  intros I S SQ X TB.
  assert (X1 : y - s < 2 * i * ((y - s) / (2 * i) + 1)).
  { pose proof (Z.mul_succ_div_gt (y - s) (2 * i) ltac:(lia)). lia. }
  assert (X2 : 2 * i * ((y - s) / (2 * i) + 1) <= 2 * i * T) by (apply Z.mul_le_mono_nonneg_l; lia).
  assert (Q : (y - 2 * i * T) * (y - 2 * i * T) <= s * s).
  { destruct (Z_le_gt_dec 0 (y - 2 * i * T)).
    - apply Z.mul_le_mono_nonneg; lia.
    - replace ((y - 2 * i * T) * (y - 2 * i * T)) with ((2 * i * T - y) * (2 * i * T - y)) by ring.
      apply Z.mul_le_mono_nonneg; lia. }
  assert (QE : (y - 2 * i * T) * (y - 2 * i * T) = y * y - 4 * i * (y * T - i * (T * T))) by ring.
  assert (4 * i * z <= 4 * i * (y * T - i * (T * T))) by lia.
  apply (Z.mul_le_mono_pos_l _ _ (4 * i)); lia.
Qed.

(** The end of the step in which the root was found leaves at least [ex]. *)
Lemma below_end b ce ci ov ex s : limited b -> rl_checked_amounts b = Ok (ce, ci, ov) -> 0 <= ex -> ex < ce ->
  let x0 := bf_third b in let i := bf_first b * 100000 in let c := bf_cliff b in
  let y := 2 * FEE_DENOMINATOR * x0 + i * x0 - 2 * c * x0 in
  let z := 2 * ex * FEE_DENOMINATOR * x0 in
  0 <= s -> s * s <= y * y - 4 * i * z ->
  let in1 := (y - s) / (2 * i) in 0 <= in1 -> in1 < ci ->
  let T := (in1 / x0 + 1) * x0 in
  1000000000 * ex <= 1000000000 * T - prog b T.
Proof.
  intros L H X0 X x0 i c y z S0 SQ in1 I0 IC T.
  destruct (checked_inv b ce ci ov L H) as (m & M1 & M0 & CI & CU & CE & _).
  destruct (rl_excl_bounds b ci ce L ltac:(lia) CE) as (CB & _).
  pose proof (lim_i b L) as I. pose proof L as (LC & _ & _ & LX). fold x0 i c in I, LC, LX, CI, M1.
  unfold FEE_DENOMINATOR in *.
  pose proof (Z.div_mod in1 x0 ltac:(lia)) as D. pose proof (Z.mod_pos_bound in1 x0 ltac:(lia)) as R.
  assert (Q0 : 0 <= in1 / x0) by (apply Z.div_pos; lia).
  assert (QM : in1 / x0 <= m).
  { assert (in1 / x0 < m + 1); [|lia]. apply Z.div_lt_upper_bound; lia. }
  set (q := in1 / x0) in *. clearbody q.
  assert (IT : in1 < T) by (unfold T; lia).
  destruct (Z_le_gt_dec ci T) as [CT|CT].
  - pose proof (prog_hi b ci (T - ci) L ltac:(lia) ltac:(lia)) as P.
    replace (ci + (T - ci)) with T in P by ring. lia.
  - assert (QL : q + 1 <= m).
    { destruct (Z.eq_dec q m) as [E|E]; [|lia]. exfalso. unfold T in CT. rewrite E in CT. lia. }
    assert (TV : 2 * i * T <= y).
    { assert (i * (q + 1) <= i * m) by (apply Z.mul_le_mono_nonneg_l; lia).
      assert (x0 * (2 * (i * (q + 1))) <= x0 * (2000000000 + i - 2 * c)) by (apply Z.mul_le_mono_nonneg_l; lia).
      unfold T, y. lia. }
    pose proof (quad_root_low i y z T s ltac:(lia) S0 SQ IT ltac:(lia)) as QZ.
    assert (TL : 0 <= T <= (m + 1) * x0).
    { unfold T. split; [apply Z.mul_nonneg_nonneg; lia|apply Z.mul_le_mono_nonneg_r; lia]. }
    pose proof (prog_quad b m T L TL M1 ltac:(lia)) as PQ. cbv zeta in PQ. fold x0 i c in PQ.
    assert (TM : T mod x0 = 0) by (unfold T; apply Z.mod_mul; lia). rewrite TM in PQ.
    assert (2 * x0 * (1000000000 * ex) <= 2 * x0 * (1000000000 * T - prog b T)).
    { unfold z, y in QZ. lia. }
    apply (Z.mul_le_mono_pos_l _ _ (2 * x0)); lia.
Qed.

Lemma inverse_lower b ex num : limited b -> 0 <= ex -> rl_num_excluded b ex = Ok num ->
  (num = bf_cliff b /\ 1000000000 * ex <= bf_third b * (1000000000 - bf_cliff b)) \/
  exists incl, ex <= incl <= U64_MAX /\ 1 <= incl
    /\ num * incl <= (incl - ex) * 1000000000 + incl
    /\ (incl - ex) * 1000000000 <= num * incl + 1000000000
    /\ 1000000000 * incl - prog b incl <= 1000000000 * ex + incl + 3000000000
    /\ prog b incl <= (incl - ex) * 1000000000 + 99 * (incl + 3000000000).
Proof.
  intros L X H. unfold rl_num_excluded in H. pose proof (lim_i b L) as I.
  assert (F : 0 <= bf_first b <= 65535) by (unfold limited in L; lia).
  pose proof L as (LC & _ & _ & LX).
  apply bind_ok in H. destruct H as (exr & XR & H).
  destruct (rl_excl_bounds b (bf_third b) exr L ltac:(lia) XR) as (EXU & _ & EXR).
  destruct (ex <=? exr) eqn:EX.
  { left. apply Ok_inj in H. split; [lia|].
    assert (TT : prog b (bf_third b) = bf_cliff b * bf_third b).
    { unfold prog. rewrite progressive_small by lia. rewrite Z2Nat.id by lia. reflexivity. }
    lia. }
  right. apply bind_ok in H. destruct H as ([[ce ci] ov] & C & H).
  destruct (checked_inv b ce ci ov L C) as (m & M1 & M0 & CI & CU & CE & OV).
  destruct (ex =? ce) eqn:EC.
  { assert (ex = ce) by lia. subst ce. exists ci.
    destruct (rl_excl_bounds b ci ex L ltac:(lia) CE) as (B1 & B2 & B3).
    unfold rl_excluded in CE. rewrite H in CE. cbn [bind] in CE.
    apply bind_ok in CE. destruct CE as ([e f] & E & CE). apply Ok_inj in CE. simpl in CE. subst e.
    unfold get_excluded_fee_amount in E. apply bind_ok in E. destruct E as (fee & FE & E).
    apply bind_ok in E. destruct E as (e2 & XX & E). apply Ok_inj in E. injection E as -> ->.
    apply mul_div_cast_up in FE. destruct FE as (FE & _). apply ssub_ok in XX. destruct XX as (-> & XX).
    pose proof (cdiv_ub (ci * num) 1000000000 ltac:(lia)) as U. unfold FEE_DENOMINATOR in FE.
    assert (K : f - 1 < f) by lia. rewrite FE in K at 2. apply cdiv_gt in K; [|lia].
    rewrite <- FE in U.
    assert (0 <= f). { rewrite FE. apply cdiv_nonneg; [|lia]. apply Z.mul_nonneg_nonneg; [lia|].
      apply rl_included_inv in H; [lia|exact L|lia]. }
    lia. }
  apply bind_ok in H. destruct H as (incl & IN & H). apply bind_ok in H. destruct H as (fee & FE & H).
  apply ssub_ok in FE. destruct FE as (-> & FE).
  apply bind_ok in H. destruct H as (n & NE & H). apply bind_ok in H. destruct H as (u & _ & H).
  apply Ok_inj in H. subst n. apply mul_div_cast_up in NE. destruct NE as (NE & IZ & _). unfold FEE_DENOMINATOR in NE.
  assert (NB : 1 <= incl -> num * incl <= (incl - ex) * 1000000000 + incl /\ (incl - ex) * 1000000000 <= num * incl).
  { intros J. split; [|rewrite NE; apply cdiv_ub; lia].
    assert (K : num - 1 < num) by lia. rewrite NE in K at 2. apply cdiv_gt in K; lia. }
  exists incl.
  assert (G : incl <= U64_MAX /\ 1000000000 * incl - prog b incl <= 1000000000 * ex + incl + 3000000000
     /\ prog b incl <= (incl - ex) * 1000000000 + 99 * (incl + 3000000000)).
  { destruct (ex <? ce) eqn:LT.
    - rewrite inc_numerator in IN by exact F. cbn [bind] in IN. cbv zeta in IN.
      destruct (below_full b ce ci ov ex L C X ltac:(lia)) as (WY & s & (SB0 & SB1) & SQ & WS & IB & MG & RB & EB).
      assert (BE : 0 <= s -> _) by exact (fun S => below_end b ce ci ov ex s L C X ltac:(lia) S). cbv zeta in BE.
      specialize (BE SB0 SB1).
      rewrite WY, SQ in IN. cbn [ok_or bind] in IN. rewrite WS in IN.
      set (in1 := (2 * FEE_DENOMINATOR * bf_third b + bf_first b * 100000 * bf_third b
                   - 2 * bf_cliff b * bf_third b - s) / (2 * (bf_first b * 100000))) in *.
      specialize (BE (proj1 IB) (proj2 IB)).
      clearbody in1.
      rewrite require_true in IN by lia. cbn [bind] in IN.
      rewrite sdiv_intro in IN by lia. cbn [bind] in IN.
      rewrite scast_intro in IN by lia. cbn [bind] in IN.
      apply bind_ok in IN. destruct IN as (ex1 & E1 & IN). apply bind_ok in IN. destruct IN as (rem & RE & IN).
      apply ssub_ok in RE. destruct RE as (-> & RE).
      rewrite scast_intro in IN by (unfold U64_MAX; lia). cbn [bind] in IN.
      apply bind_ok in IN. destruct IN as ([k f] & KE & IN). cbn [fst] in IN.
      apply scast_ok in IN. destruct IN as (-> & IU).
      apply included_inv in KE; [|lia|lia]. destruct KE as (K1 & K2 & K3).
      pose proof (step_net b in1 ex1 (ex - ex1) k _ L ltac:(lia) ltac:(lia) MG E1 K2 ltac:(lia)) as SN.
      destruct (rl_excl_bounds b in1 ex1 L ltac:(lia) E1) as (EX1 & _).
      split; [lia|]. split; [lia|].
      set (T := (in1 / bf_third b + 1) * bf_third b) in *.
      assert (IT : in1 < T).
      { unfold T. pose proof (Z.mul_succ_div_gt in1 (bf_third b) ltac:(lia)). lia. }
      rewrite MG in K1, K2.
      destruct (Z_le_gt_dec (in1 + k) T) as [G|G].
      + pose proof (prog_same b in1 k L ltac:(lia) ltac:(lia) G) as P. lia.
      + pose proof (prog_same b in1 (T - in1) L ltac:(lia) ltac:(lia) ltac:(fold T; lia)) as P.
        pose proof (prog_hi b T (in1 + k - T) L ltac:(lia) ltac:(lia)) as P2.
        replace (in1 + (T - in1)) with T in P by ring. replace (T + (in1 + k - T)) with (in1 + k) in P2 by ring.
        assert (0 <= (in1 + k - T) * marg b in1) by (apply Z.mul_nonneg_nonneg; lia).
        lia.
    - apply bind_ok in IN. destruct IN as (u1 & OVF & IN). apply require_ok in OVF.
      assert (OV' : ov = false) by (destruct ov; [discriminate|reflexivity]).
      apply bind_ok in IN. destruct IN as (rem & RE & IN). apply ssub_ok in RE. destruct RE as (-> & RE).
      apply bind_ok in IN. destruct IN as ([k f] & KE & IN). cbn [fst] in IN.
      apply sadd_ok in IN. destruct IN as (-> & IU).
      unfold MAX_FEE_NUMERATOR in KE. apply included_inv in KE; [|lia|lia]. destruct KE as (K1 & K2 & K3).
      pose proof (step_net b ci ce (ex - ce) k 990000000 L ltac:(lia) ltac:(lia) (eq_sym (OV OV')) CE K2 ltac:(lia)) as SN.
      destruct (rl_excl_bounds b ci ce L ltac:(lia) CE) as (EX1 & _).
      pose proof (prog_hi b ci k L ltac:(lia) ltac:(lia)) as P2.
      rewrite (Z.add_comm k ci). lia. }
  destruct (NB ltac:(lia)) as (NB1 & NB2).
  split; [lia|]. split; [lia|]. split; [exact NB1|]. split; [lia|]. lia.
Qed.

(** What is charged through the inverse, against the progressive fee on what is paid. *)
Lemma net_step b x k : limited b -> 0 <= x -> 0 <= k ->
  10000000 * k <= (1000000000 * (x + k) - prog b (x + k)) - (1000000000 * x - prog b x) <= 1000000000 * k.
Proof.
  intros L X K. pose proof (prog_hi b x k L X K). pose proof (prog_lo b x k L X K) as P.
  assert (0 <= marg b x).
  { unfold marg, marginal. pose proof (lim_i b L). pose proof L as (LC & _ & _ & LX).
    assert (0 <= x / bf_third b) by (apply Z.div_pos; lia).
    assert (0 <= bf_first b * 100000 * (x / bf_third b)) by (apply Z.mul_nonneg_nonneg; lia).
    apply Z.min_glb; lia. }
  assert (0 <= k * marg b x) by (apply Z.mul_nonneg_nonneg; lia). lia.
Qed.

Lemma inverse_charge b ex num paid t : limited b -> 0 <= ex -> rl_num_excluded b ex = Ok num ->
  0 <= paid -> Z.min 990000000 num <= t <= 990000000 -> ex * 1000000000 <= paid * (1000000000 - t) ->
  1000000000 * ex <= 1000000000 * paid - prog b paid + 200 * paid + 600000000000
  /\ (t = Z.min 990000000 num -> paid * (1000000000 - t) < ex * 1000000000 + 1000000000 ->
      1000000000 * paid - prog b paid <= 1000000000 * ex + 200 * paid + 600000000000).
Proof.
  intros L X H P T0 PL. set (t0 := Z.min 990000000 num) in *.
  pose proof L as (LC & _ & _ & LX).
  assert (PL0 : ex * 1000000000 <= paid * (1000000000 - t0)).
  { assert (paid * (1000000000 - t) <= paid * (1000000000 - t0)) by (apply Z.mul_le_mono_nonneg_l; lia). lia. }
  clear PL.
  assert (G : 1000000000 * ex <= 1000000000 * paid - prog b paid + 200 * paid + 600000000000
    /\ (paid * (1000000000 - t0) < ex * 1000000000 + 1000000000 ->
        1000000000 * paid - prog b paid <= 1000000000 * ex + 200 * paid + 600000000000)).
  2:{ destruct G as (G1 & G2). split; [exact G1|]. intros -> . exact G2. }
  clear T0 t.
  destruct (inverse_lower b ex num L X H) as [(-> & EX)|(incl & B1 & B2 & N1 & N2 & I1 & I2)].
  - assert (T : t0 = bf_cliff b) by (unfold t0; lia). rewrite T in *. clear T t0.
    assert (SM : forall x, 0 <= x <= bf_third b -> prog b x = bf_cliff b * x).
    { intros x HX. unfold prog. rewrite progressive_small by lia. rewrite Z2Nat.id by lia. reflexivity. }
    destruct (Z_le_gt_dec paid (bf_third b)) as [S|S].
    + rewrite SM by lia. lia.
    + pose proof (net_step b (bf_third b) (paid - bf_third b) L ltac:(lia) ltac:(lia)) as NS.
      replace (bf_third b + (paid - bf_third b)) with paid in NS by ring. rewrite (SM (bf_third b)) in NS by lia.
      split; [lia|]. intros PU. pose proof (prog_bounds b paid L P). lia.
  - (* the payment and the reconstructed amount are close *)
    assert (NEAR : paid < incl -> (incl - paid) * 10000000 <= incl + 3000000000).
    { intros LT. unfold t0 in PL0. destruct (Z.min_spec 990000000 num) as [(A & E)|(A & E)]; rewrite E in PL0.
      - pose proof (prog_bounds b incl L ltac:(lia)). lia.
      - assert ((incl - paid) * 10000000 <= (incl - paid) * (1000000000 - num)) by (apply Z.mul_le_mono_nonneg_l; lia).
        lia. }
    assert (FAR : incl < paid -> paid * (1000000000 - t0) < ex * 1000000000 + 1000000000 ->
       (paid - incl) * 10000000 <= incl + 1000000000).
    { intros LT PU. unfold t0 in *. destruct (Z.min_spec 990000000 num) as [(A & E)|(A & E)]; rewrite E in *.
      - assert (990000000 * incl <= num * incl) by (apply Z.mul_le_mono_nonneg_r; lia). lia.
      - assert ((paid - incl) * 10000000 <= (paid - incl) * (1000000000 - num)) by (apply Z.mul_le_mono_nonneg_l; lia).
        lia. }
    destruct (Z_lt_ge_dec paid incl) as [S|S].
    + specialize (NEAR S). pose proof (net_step b paid (incl - paid) L ltac:(lia) ltac:(lia)) as NS.
      replace (paid + (incl - paid)) with incl in NS by ring. lia.
    + pose proof (net_step b incl (paid - incl) L ltac:(lia) ltac:(lia)) as NS.
      replace (incl + (paid - incl)) with paid in NS by ring. split; [lia|]. intros PU.
      destruct (Z.eq_dec incl paid) as [Q|Q]; [rewrite Q in *; lia|].
      specialize (FAR ltac:(lia) PU). lia.
Qed.
