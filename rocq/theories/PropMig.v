(** * C44: the tokens set aside for the migrated pool pay for the liquidity that is created. *)
From Coq Require Import ZArith List Bool Lia ZifyBool.
From Verif Require Import Base MathModel CurveModel FeeModel ConfigModel PoolModel TxModel
  SystemModel Fixtures Spec Lib CalcProofs ConfigProofs CurveProofs InvProofs InvReach FixturesReach Effects Frame Bounds
  PropMath PropConfig PropVest.
Import ListNotations.
Open Scope Z_scope.
#[local] Arguments Z.pow : simpl never.
#[local] Arguments Z.testbit : simpl never.

(** ** What DAMM v2 takes

    The tokens the DAMM v2 program takes from the pool for [L] units of liquidity; it rounds in
    its own favour. *)

(** Smallest integer with at least the value of the fraction. *)
Definition ceil_frac (n d r : Z) : Prop := n <= r * d /\ (r - 1) * d < n.

(** A concentrated pool over the whole price range:
    L * (1/price - 1/max) base and L * (price - min) / 2^128 quote. *)
Definition range_base (price L r : Z) : Prop :=
  ceil_frac (L * (MAX_SQRT_PRICE - price)) (price * MAX_SQRT_PRICE) r.
Definition range_quote (price L r : Z) : Prop :=
  ceil_frac (L * (price - MIN_SQRT_PRICE)) Q128 r.

(** A constant-product ("compounding") pool: L / price base and L * price / 2^128 quote. *)
Definition product_base (price L r : Z) : Prop := ceil_frac L price r.
Definition product_quote (price L r : Z) : Prop := ceil_frac (L * price) Q128 r.

Definition damm_takes (h : handler) (price L base quote : Z) : Prop :=
  match h with
  | Concentrated => range_base price L base /\ range_quote price L quote
  | Compounding => product_base price L base /\ product_quote price L quote
  end.

(** Adding to a constant-product pool costs a proportional part of its reserves. *)
Definition damm_adds (h : handler) (price rbase rquote rliq L base quote : Z) : Prop :=
  match h with
  | Concentrated => range_base price L base /\ range_quote price L quote
  | Compounding => ceil_frac (L * rbase) rliq base /\ ceil_frac (L * rquote) rliq quote
  end.

Lemma ceil_frac_le n d r m : 0 < d -> ceil_frac n d r -> (r <= m <-> n <= m * d).
Proof. intros D (A & B). split; intros H; nia. Qed.

Lemma ceil_frac_cdiv n d : 0 < d -> ceil_frac n d (cdiv n d).
Proof.
  intros D. split; [apply cdiv_ub; auto|]. apply cdiv_gt; [auto|lia].
Qed.

Lemma ceil_frac_nonneg n d r : 0 < d -> 0 <= n -> ceil_frac n d r -> 0 <= r.
Proof. intros D N (A & B). nia. Qed.

(** ** Concentrated pools *)
Lemma concentrated_exact base quote price l :
  0 <= base -> 0 <= quote -> MIN_SQRT_PRICE < price < MAX_SQRT_PRICE ->
  concentrated_initial_liquidity base quote price = Ok l ->
  0 <= l <= U128_MAX /\
  forall L, L <= l <-> L * (MAX_SQRT_PRICE - price) <= base * (price * MAX_SQRT_PRICE)
                       /\ L * (price - MIN_SQRT_PRICE) <= quote * Q128.
Proof.
  intros B Q P H. unfold concentrated_initial_liquidity, liquidity_from_delta_base, liquidity_from_delta_quote in H.
  rewrite ssub_intro in H by lia. rewrite ssub_intro in H by lia. cbn [bind] in H.
  rewrite sdiv_intro in H by lia. rewrite sdiv_intro in H by lia. cbn [bind] in H.
  apply bind_ok in H. destruct H as (lq & LQ & H). apply scast_ok in LQ. destruct LQ as (-> & LQ).
  assert (P0 : 0 < MIN_SQRT_PRICE) by reflexivity. pose proof Q128_pos as Q0.
  pose proof (div_nonneg (base * price * MAX_SQRT_PRICE) (MAX_SQRT_PRICE - price) ltac:(repeat apply Z.mul_nonneg_nonneg; lia) ltac:(lia)) as D1.
  pose proof (div_nonneg (quote * Q128) (price - MIN_SQRT_PRICE) ltac:(nia) ltac:(lia)) as D2.
  assert (E : l = Z.min (base * price * MAX_SQRT_PRICE / (MAX_SQRT_PRICE - price))
                        (quote * Q128 / (price - MIN_SQRT_PRICE))).
  { destruct (_ <? _) eqn:C; [apply Ok_inj in H|apply scast_ok in H]; lia. }
  split; [lia|]. intros L.
  pose proof (div_ge (base * price * MAX_SQRT_PRICE) (MAX_SQRT_PRICE - price) L ltac:(lia)) as G1.
  pose proof (div_ge (quote * Q128) (price - MIN_SQRT_PRICE) L ltac:(lia)) as G2.
  replace (base * (price * MAX_SQRT_PRICE)) with (base * price * MAX_SQRT_PRICE) by ring.
  rewrite <- G1, <- G2, E. lia.
Qed.

Lemma concentrated_exists base quote price :
  0 <= base -> 0 <= quote -> MIN_SQRT_PRICE < price < MAX_SQRT_PRICE ->
  quote * Q128 / (price - MIN_SQRT_PRICE) <= U128_MAX ->
  exists l, concentrated_initial_liquidity base quote price = Ok l.
Proof.
  intros B Q P U. unfold concentrated_initial_liquidity, liquidity_from_delta_base, liquidity_from_delta_quote.
  rewrite ssub_intro by lia. rewrite ssub_intro by lia. cbn [bind].
  rewrite sdiv_intro by lia. rewrite sdiv_intro by lia. cbn [bind].
  rewrite scast_intro by lia. cbn [bind].
  destruct (_ <? _) eqn:C; [eauto|]. rewrite scast_intro by lia. eauto.
Qed.

(** ** Constant-product pools *)
Lemma sqrt_value n r : sqrt_u256 n = Some r -> 0 <= n <= U256_MAX -> 0 <= r /\ r * r <= n < (r + 1) * (r + 1).
Proof.
  intros H N. destruct (C35_sqrt_exact n N) as (s & S & S1 & S2). rewrite H in S. inversion S; subst; auto.
Qed.

Lemma compounding_value a b s1 l :
  0 <= a <= U64_MAX -> 0 <= b <= U64_MAX -> compounding_price_and_liquidity a b = Some (s1, l) ->
  exists s2, 0 < a /\ l = s2 * a /\ 0 <= s2 <= s1 /\ s1 <= s2 + 1 /\ l <= U128_MAX
    /\ MIN_SQRT_PRICE <= s1 <= MAX_SQRT_PRICE
    /\ s1 * s2 * a <= b * Q128 <= (s1 * s1 + 2 * s1) * a.
Proof.
  intros A B H. unfold compounding_price_and_liquidity in H. destruct (a =? 0) eqn:A0; [discriminate|].
  assert (AP : 0 < a) by lia. pose proof Q128_pos as QP.
  set (X := b * Q128) in *. assert (X0 : 0 <= X) by (unfold X; nia).
  assert (XM : X <= U256_MAX - a) by (unfold X, Q128, U256_MAX, U64_MAX in *; lia).
  pose proof (cdiv_nonneg X a X0 AP) as C0. pose proof (div_nonneg X a X0 AP) as D0.
  assert (CM : cdiv X a <= U256_MAX) by (apply cdiv_le; [auto|nia]).
  pose proof (div_le_cdiv X a AP) as DC. pose proof (cdiv_lt_div1 X a AP) as DC1.
  pose proof (cdiv_ub X a AP) as CU. pose proof (div_lb X a AP) as DL.
  set (c := cdiv X a) in *. set (f := X / a) in *.
  assert (NE : c = f \/ c = f + 1) by lia. clearbody c f.
  destruct (sqrt_u256 c) as [x1|] eqn:S1; [|discriminate].
  destruct (U128_MAX <? x1); [discriminate|].
  destruct ((x1 <? MIN_SQRT_PRICE) || (MAX_SQRT_PRICE <? x1)) eqn:R; [discriminate|].
  destruct (sqrt_u256 f) as [x2|] eqn:S2; [|discriminate].
  destruct (U128_MAX <? x2); [discriminate|].
  destruct (x2 * a <=? U128_MAX) eqn:U; [|discriminate]. inversion H; subst x1 l; clear H.
  apply sqrt_value in S1; [|lia]. apply sqrt_value in S2; [|lia].
  destruct S1 as (P1 & P2 & P3), S2 as (R1 & R2 & R3).
  assert (L21 : x2 <= s1) by nia. assert (L12 : s1 <= x2 + 1) by nia.
  assert (M : s1 * x2 <= f).
  { destruct (Z.eq_dec s1 x2) as [->|NQ]; [lia|]. assert (s1 = x2 + 1) by lia. subst s1. nia. }
  exists x2. repeat split; try lia.
  - apply Z.le_trans with (f * a); [|lia]. apply Z.mul_le_mono_nonneg_r; lia.
  - apply Z.le_trans with (c * a); [lia|]. apply Z.mul_le_mono_nonneg_r; lia.
Qed.

(** ** C44, first position: any liquidity up to the computed amount can be paid for, and the
    computed amount wastes at most rounding: whatever can be paid for is at most the computed
    liquidity (plus one unit per unit of base for a constant-product pool). *)
Theorem C44_initial_liquidity_affordable : forall h mig base quote price liq dead,
  0 <= base <= U64_MAX -> 0 <= quote <= U64_MAX -> MIN_SQRT_PRICE < mig < MAX_SQRT_PRICE ->
  initial_pool_information h mig base quote = Ok (price, liq, dead) ->
  0 <= liq /\ 0 <= dead
  /\ (forall L b q, 0 <= L <= liq + dead -> damm_takes h price L b q -> 0 <= b <= base /\ 0 <= q <= quote)
  /\ (forall L b q, 0 <= L -> damm_takes h price L b q -> b <= base -> q <= quote ->
        L <= liq + dead + match h with Concentrated => 0 | Compounding => base end).
Proof.
  intros h mig base quote price liq dead B Q M H. unfold initial_pool_information in H.
  assert (P0 : 0 < MIN_SQRT_PRICE) by reflexivity. pose proof Q128_pos as Q0.
  destruct h.
  - apply bind_ok in H. destruct H as ([s l] & C & H). apply ok_or_ok in C.
    apply bind_ok in H. destruct H as (d & D & H). apply ssub_ok in D. destruct D as (-> & D).
    apply Ok_inj in H. inversion H; subst; clear H.
    apply compounding_value in C; auto. destruct C as (s2 & A0 & -> & S2 & S12 & U & R & X1 & X2).
    assert (0 < price) by lia. assert (0 <= DEAD_LIQUIDITY) by discriminate.
    split; [lia|]. split; [auto|]. split.
    + intros L b q LL (T1 & T2). split.
      * split; [eapply ceil_frac_nonneg; [|  |exact T1]; lia|].
        eapply ceil_frac_le; [|exact T1|]; [lia|]. nia.
      * split; [eapply ceil_frac_nonneg; [|  |exact T2]; nia|].
        eapply ceil_frac_le; [|exact T2|]; [lia|].
        apply Z.le_trans with (s2 * base * price); [apply Z.mul_le_mono_nonneg_r; lia|].
        replace (s2 * base * price) with (price * s2 * base) by ring. lia.
    + intros L b q LL (T1 & T2) Hb Hq. apply (proj1 (ceil_frac_le L price b base ltac:(lia) T1)) in Hb.
      assert (base * price <= base * (s2 + 1)) by (apply Z.mul_le_mono_nonneg_l; lia). lia.
  - apply bind_ok in H. destruct H as (l & C & H). apply Ok_inj in H. inversion H; subst; clear H.
    apply concentrated_exact in C; try lia. destruct C as (L0 & C).
    split; [lia|]. split; [lia|]. split.
    + intros L b q LL (T1 & T2). destruct (proj1 (C L) ltac:(lia)) as (C1 & C2).
      split; split.
      * eapply ceil_frac_nonneg; [| |exact T1]; nia.
      * eapply ceil_frac_le; [|exact T1|exact C1]. nia.
      * eapply ceil_frac_nonneg; [| |exact T2]; nia.
      * eapply ceil_frac_le; [|exact T2|exact C2]. lia.
    + intros L b q LL (T1 & T2) Hb Hq.
      apply (proj1 (ceil_frac_le (L * (MAX_SQRT_PRICE - price)) (price * MAX_SQRT_PRICE) b base ltac:(nia) T1)) in Hb.
      apply (proj1 (ceil_frac_le (L * (price - MIN_SQRT_PRICE)) Q128 q quote ltac:(lia) T2)) in Hq.
      pose proof (proj2 (C L) (conj Hb Hq)). lia.
Qed.

(** ** C44, second position: the liquidity bought with the leftovers costs at most the leftovers,
    and is the largest such. *)
Theorem C44_second_liquidity_affordable : forall h mig base quote rbase rquote rliq liq,
  0 <= base -> 0 <= quote -> MIN_SQRT_PRICE < mig < MAX_SQRT_PRICE ->
  0 < rbase -> 0 < rquote -> 0 < rliq ->
  calculate_liquidity_delta h mig base quote rbase rquote rliq = Ok liq ->
  0 <= liq
  /\ (forall b q, damm_adds h mig rbase rquote rliq liq b q -> 0 <= b <= base /\ 0 <= q <= quote)
  /\ (forall L b q, damm_adds h mig rbase rquote rliq L b q -> b <= base -> q <= quote -> L <= liq).
Proof.
  intros h mig base quote rbase rquote rliq liq B Q M RB RQ RL H. unfold calculate_liquidity_delta in H.
  assert (P0 : 0 < MIN_SQRT_PRICE) by reflexivity. pose proof Q128_pos as Q0.
  destruct h.
  - apply bind_ok in H. destruct H as (lb & LB & H). apply mul_div_cast128_down in LB.
    apply bind_ok in H. destruct H as (lq & LQ & H). apply mul_div_cast128_down in LQ.
    apply Ok_inj in H. destruct LB as (-> & _), LQ as (-> & _).
    pose proof (div_nonneg (base * rliq) rbase ltac:(nia) RB) as D1.
    pose proof (div_nonneg (quote * rliq) rquote ltac:(nia) RQ) as D2.
    assert (E : forall L, L <= liq <-> L * rbase <= base * rliq /\ L * rquote <= quote * rliq).
    { intros L. rewrite <- (div_ge _ _ L RB), <- (div_ge _ _ L RQ). lia. }
    clear H. split; [apply E; nia|]. destruct (proj1 (E liq) ltac:(lia)) as (C1 & C2).
    assert (L0 : 0 <= liq) by (apply E; nia). split.
    + intros b q (T1 & T2). split; split.
      * eapply ceil_frac_nonneg; [| |exact T1]; nia.
      * eapply ceil_frac_le; [|exact T1|exact C1]. lia.
      * eapply ceil_frac_nonneg; [| |exact T2]; nia.
      * eapply ceil_frac_le; [|exact T2|exact C2]. lia.
    + intros L b q (T1 & T2) Hb Hq.
      apply (proj1 (ceil_frac_le _ _ _ _ RL T1)) in Hb. apply (proj1 (ceil_frac_le _ _ _ _ RL T2)) in Hq.
      apply E. auto.
  - apply concentrated_exact in H; try lia. destruct H as (L0 & C).
    split; [lia|]. destruct (proj1 (C liq) ltac:(lia)) as (C1 & C2). split.
    + intros b q (T1 & T2). split; split.
      * eapply ceil_frac_nonneg; [| |exact T1]; nia.
      * eapply ceil_frac_le; [|exact T1|exact C1]. nia.
      * eapply ceil_frac_nonneg; [| |exact T2]; nia.
      * eapply ceil_frac_le; [|exact T2|exact C2]. lia.
    + intros L b q (T1 & T2) Hb Hq.
      apply (proj1 (ceil_frac_le (L * (MAX_SQRT_PRICE - mig)) (mig * MAX_SQRT_PRICE) b base ltac:(nia) T1)) in Hb.
      apply (proj1 (ceil_frac_le (L * (mig - MIN_SQRT_PRICE)) Q128 q quote ltac:(lia) T2)) in Hq.
      apply C. auto.
Qed.

(** ** Amounts at creation and at migration *)
Lemma created_mig c : created c ->
  exists qa, migration_amounts_1 (get_migration_handler (c_migration_option c) (c_migrated_collect_mode c))
      (c_mig_price c) (c_threshold c) (c_migration_fee_pct c) = Ok (c_base_threshold c, qa)
  /\ migrated_mode_ok (c_migrated_collect_mode c) = true
  /\ (c_migration_option c = 1 -> c_migrated_collect_mode c = 2 -> exists fb fq,
        migration_protocol_fees Compounding (c_mig_price c) (c_base_threshold c) qa
          PROTOCOL_LIQUIDITY_MIGRATION_FEE_BPS = Ok (fb, fq)
        /\ compounding_validate (c_base_threshold c - fb) (qa - fq) (c_mig_price c) = Ok tt).
Proof.
  intros H. apply created_inv in H.
  destruct H as (q & sup & spl & now & mig & sb & ba & fl & pre & post & qm & fc & lr & qa & bps & T & _ & B).
  exists qa. pose proof (cb_amounts _ _ _ _ _ _ _ _ _ _ _ _ _ _ _ _ B) as A.
  pose proof (cb_mode _ _ _ _ _ _ _ _ _ _ _ _ _ _ _ _ B) as M.
  pose proof (cb_comp _ _ _ _ _ _ _ _ _ _ _ _ _ _ _ _ B) as C.
  rewrite (cb_eq _ _ _ _ _ _ _ _ _ _ _ _ _ _ _ _ B). simpl. split; [exact A|]. split; [exact M|].
  intros O1 O2. destruct (C O1 O2) as (fb & fq & X1 & _ & _ & X2). eauto.
Qed.

Lemma delta_base_down_intro low up liq : 0 < low <= up -> low * up <= U256_MAX ->
  liq * (up - low) / (low * up) <= U64_MAX ->
  delta_base low up liq Down = Ok (liq * (up - low) / (low * up)).
Proof.
  intros L M U. assert (0 < low * up) by nia. unfold delta_base, delta_base_256.
  rewrite psub_intro by lia. cbn [bind]. rewrite smul_intro by lia. cbn [bind].
  rewrite require_true by lia. cbn [bind]. unfold mul_div_u256.
  replace (low * up =? 0) with false by lia. cbv zeta. cbn [divr].
  replace (liq * (up - low) / (low * up) <=? U256_MAX) with true by (unfold U64_MAX, U256_MAX in *; lia).
  cbn [ok_or bind]. rewrite require_true by lia. cbn [bind]. apply scast_intro. lia.
Qed.

Definition mig_handler (c : config) : handler :=
  get_migration_handler (c_migration_option c) (c_migrated_collect_mode c).

Lemma split_exists w : reachable w -> p_progress (w_pool w) = 2 ->
  let c := w_config w in let h := mig_handler c in
  exists fb fq eb eq, migration_split w h = Ok (fb, fq, eb, eq)
  /\ 0 < eb <= U64_MAX /\ 0 < eq <= U64_MAX
  /\ (h = Concentrated -> eq * Q128 / (c_mig_price c - MIN_SQRT_PRICE) <= U128_MAX)
  /\ (c_migration_option c = 1 -> h = Compounding -> compounding_validate eb eq (c_mig_price c) = Ok tt).
Proof.
  intros R P c h. pose proof (reachable_inv _ R) as I. pose proof (reachable_bounded _ R) as BD.
  pose proof (created_cfg_ok _ (iv_created _ I)) as K.
  destruct (created_mig _ (iv_created _ I)) as (qa & AM & MO & CV). fold c in AM, MO, CV. fold (mig_handler c) in AM. fold h in AM.
  pose proof (iv_base _ I) as BO. unfold base_owed in BO. rewrite P in BO. cbn [Z.eqb Pos.eqb] in BO.
  pose proof (iv_nonneg _ I) as NN. pose proof (bd_base _ BD) as BB. fold c in BO, K.
  pose proof (ok_base _ K) as KB. pose proof (ok_threshold _ K) as KT. pose proof (ok_mig_max _ K) as KM.
  pose proof (ok_start_min _ K) as KS. pose proof (co_mig_lo _ _ (ok_curve _ K)) as KL.
  assert (M0 : 0 < MIN_SQRT_PRICE) by reflexivity.
  unfold migration_split. cbv zeta. unfold get_protocol_and_trading_base_fee.
  rewrite sadd_intro by lia. cbn [bind]. rewrite sadd_intro by lia. cbn [bind].
  rewrite ssub_intro by lia. cbn [bind]. fold c. rewrite (iv_mbps _ I).
  set (rs := w_bvault w - _). assert (RS : c_base_threshold c <= rs <= U64_MAX) by (unfold rs; lia). clearbody rs.
  destruct (migration_quote_ok (c_threshold c) (c_migration_fee_pct c) KT (ok_mfp _ K)) as (q & f & Q & _ & Q2 & Q3 & Q4).
  unfold migration_amounts_1 in AM. rewrite Q in AM. cbn [bind fst] in AM.
  assert (QU : q <= U64_MAX) by lia.
  (* the quote fee *)
  assert (FQ : safe_mul_div_cast_u64 U64_MAX q PROTOCOL_LIQUIDITY_MIGRATION_FEE_BPS BASIS_POINT_MAX Down
               = Ok (q * PROTOCOL_LIQUIDITY_MIGRATION_FEE_BPS / BASIS_POINT_MAX)).
  { apply mul_div_cast_down_intro; [unfold PROTOCOL_LIQUIDITY_MIGRATION_FEE_BPS, U128_MAX, U64_MAX in *; lia|reflexivity|].
    apply Z.div_le_upper_bound; unfold PROTOCOL_LIQUIDITY_MIGRATION_FEE_BPS, BASIS_POINT_MAX in *; lia. }
  assert (FQB : 0 <= 2 * (q * PROTOCOL_LIQUIDITY_MIGRATION_FEE_BPS / BASIS_POINT_MAX) < q).
  { unfold PROTOCOL_LIQUIDITY_MIGRATION_FEE_BPS, BASIS_POINT_MAX. clear - Q3.
    pose proof (Z.div_le_upper_bound (q * 20) 10000 (q / 2) ltac:(lia)). 
    pose proof (div_nonneg (q * 20) 10000 ltac:(lia) ltac:(lia)).
    pose proof (div_lb (q * 20) 10000 ltac:(lia)). lia. }
  destruct h eqn:HH.
  - apply bind_ok in AM. destruct AM as (b & CB & AM). apply Ok_inj in AM. inversion AM; subst b qa; clear AM.
    unfold migration_amounts_2. rewrite require_true by lia. cbn [bind]. rewrite Q. cbn [bind fst].
    assert (FB : safe_mul_div_cast_u64 U64_MAX (c_base_threshold c) PROTOCOL_LIQUIDITY_MIGRATION_FEE_BPS BASIS_POINT_MAX Down
               = Ok (c_base_threshold c * PROTOCOL_LIQUIDITY_MIGRATION_FEE_BPS / BASIS_POINT_MAX)).
    { apply mul_div_cast_down_intro; [unfold PROTOCOL_LIQUIDITY_MIGRATION_FEE_BPS, U128_MAX, U64_MAX in *; lia|reflexivity|].
      apply Z.div_le_upper_bound; unfold PROTOCOL_LIQUIDITY_MIGRATION_FEE_BPS, BASIS_POINT_MAX in *; lia. }
    assert (FBB : 0 <= c_base_threshold c * PROTOCOL_LIQUIDITY_MIGRATION_FEE_BPS / BASIS_POINT_MAX < c_base_threshold c).
    { unfold PROTOCOL_LIQUIDITY_MIGRATION_FEE_BPS, BASIS_POINT_MAX. clear - KB.
      pose proof (div_nonneg (c_base_threshold c * 20) 10000 ltac:(lia) ltac:(lia)).
      pose proof (div_lb (c_base_threshold c * 20) 10000 ltac:(lia)). lia. }
    unfold migration_protocol_fees in *. rewrite FB in *. cbn [bind] in *. rewrite FQ in *. cbn [bind] in *.
    rewrite ssub_intro by lia. cbn [bind]. rewrite ssub_intro by lia. cbn [bind].
    do 4 eexists. split; [reflexivity|]. split; [lia|]. split; [lia|]. split; [discriminate|].
    intros O _. assert (M2 : c_migrated_collect_mode c = 2).
    { unfold h, mig_handler, get_migration_handler in HH. rewrite O in HH. simpl in HH.
      destruct (c_migrated_collect_mode c =? 2) eqn:E; [lia|discriminate]. }
    destruct (CV O M2) as (fb & fq & X1 & X2). apply Ok_inj in X1. inversion X1; subst. exact X2.
  - apply bind_ok in AM. destruct AM as (l & L & AM).
    apply bind_ok in AM. destruct AM as (b & B & AM). apply bind_ok in AM. destruct AM as (u & U & AM).
    apply bind_ok in AM. destruct AM as (b' & B' & AM). apply scast_ok in B'. apply Ok_inj in AM.
    destruct B' as (-> & BU). inversion AM; subst b qa; clear AM U u.
    unfold liquidity_from_delta_quote in L. rewrite ssub_intro in L by lia. cbn [bind] in L.
    rewrite sdiv_intro in L by lia. cbn [bind] in L. apply scast_ok in L. destruct L as (-> & L).
    apply delta_base_256_ok in B. destruct B as (_ & B1 & B2 & _). cbn [divr] in B2.
    unfold migration_amounts_2. rewrite Q. cbn [bind fst].
    set (fq := q * PROTOCOL_LIQUIDITY_MIGRATION_FEE_BPS / BASIS_POINT_MAX) in *.
    unfold migration_protocol_fees. rewrite FQ. cbn [bind]. clearbody fq.
    unfold liquidity_from_delta_quote. rewrite ssub_intro by lia. cbn [bind].
    rewrite sdiv_intro by lia. cbn [bind].
    set (s := c_mig_price c) in *. set (d := s - MIN_SQRT_PRICE) in *. assert (D : 0 < d) by (unfold d; lia).
    pose proof Q128_pos as QP.
    assert (LL : 2 * (fq * Q128 / d) <= q * Q128 / d).
    { apply div_ge; [exact D|]. pose proof (div_lb (fq * Q128) d D).
      assert (2 * (fq * Q128 / d) * d <= 2 * fq * Q128) by lia.
      apply Z.le_trans with (2 * fq * Q128); [lia|]. apply Z.mul_le_mono_nonneg_r; lia. }
    pose proof (div_nonneg (fq * Q128) d ltac:(nia) D) as L0.
    assert (LP : 0 < q * Q128 / d).
    { assert (1 <= q * Q128 / d); [|lia]. apply div_ge; [exact D|].
      apply Z.le_trans with (1 * Q128); [|apply Z.mul_le_mono_nonneg_r; lia].
      unfold d. unfold MAX_SQRT_PRICE, MIN_SQRT_PRICE, Q128 in *. lia. }
    rewrite scast_intro by lia. cbn [bind].
    set (l' := fq * Q128 / d) in *. set (l := q * Q128 / d) in *.
    assert (SM : s * MAX_SQRT_PRICE <= U256_MAX).
    { apply Z.le_trans with (MAX_SQRT_PRICE * MAX_SQRT_PRICE); [apply Z.mul_le_mono_nonneg_r; [discriminate|lia]|].
      vm_compute. discriminate. }
    pose proof (cdiv_ub (l * (MAX_SQRT_PRICE - s)) (s * MAX_SQRT_PRICE) B1) as CU. rewrite <- B2 in CU.
    assert (FBL : l' * (MAX_SQRT_PRICE - s) / (s * MAX_SQRT_PRICE) < c_base_threshold c).
    { apply div_lt; [exact B1|]. apply Z.lt_le_trans with (l * (MAX_SQRT_PRICE - s)); [|exact CU].
      apply Z.mul_lt_mono_pos_r; lia. }
    rewrite delta_base_down_intro by lia. cbn [bind].
    pose proof (div_nonneg (l' * (MAX_SQRT_PRICE - s)) (s * MAX_SQRT_PRICE) ltac:(nia) B1) as FB0.
    rewrite ssub_intro by lia. cbn [bind]. rewrite ssub_intro by lia. cbn [bind].
    do 4 eexists. split; [reflexivity|]. split; [lia|]. split; [lia|]. split; [|discriminate].
    intros _. apply Z.le_trans with l; [|exact L]. apply Z.div_le_mono; [exact D|].
    apply Z.mul_le_mono_nonneg_r; lia.
Qed.

(** ** A completed pool can always be migrated *)
Lemma second_fits a b s1 s2 liq1 d1b d1q :
  0 < a <= U64_MAX -> 0 <= b <= U64_MAX -> 0 <= s2 -> s2 <= s1 <= s2 + 1 -> 0 < s1 -> s2 * a <= U128_MAX ->
  b * Q128 <= (s1 * s1 + 2 * s1) * a -> 0 < liq1 -> s2 * a <= 2 * liq1 ->
  ceil_frac liq1 s1 d1b -> ceil_frac (liq1 * s1) Q128 d1q ->
  0 < d1b /\ 0 < d1q /\ (a - d1b) * liq1 / d1b <= U128_MAX /\ (b - d1q) * liq1 / d1q <= U128_MAX.
Proof.
  intros A B S0 S S1 U X L HALF (T1 & T1') (T2 & T2'). pose proof Q128_pos as QP.
  assert (D1 : 0 < d1b) by nia. assert (P1 : 0 < liq1 * s1) by nia. assert (D2 : 0 < d1q) by nia.
  split; [auto|]. split; [auto|].
  assert (AS : a * s1 <= s2 * a + a) by nia.
  assert (BND : s2 * a + 3 * a - liq1 <= U128_MAX) by (unfold U128_MAX, U64_MAX in *; lia).
  split; (apply Z.div_le_upper_bound; [auto|]).
  - apply Z.le_trans with (d1b * (a * s1 - liq1)); [nia|]. apply Z.mul_le_mono_nonneg_l; lia.
  - assert (Y : b * liq1 <= (s1 + 2) * a * d1q).
    { apply Z.mul_le_mono_pos_r with Q128; [auto|].
      apply Z.le_trans with ((s1 * s1 + 2 * s1) * a * liq1).
      - replace (b * liq1 * Q128) with (b * Q128 * liq1) by ring. apply Z.mul_le_mono_nonneg_r; lia.
      - replace ((s1 * s1 + 2 * s1) * a * liq1) with ((s1 + 2) * a * (liq1 * s1)) by ring.
        replace ((s1 + 2) * a * d1q * Q128) with ((s1 + 2) * a * (d1q * Q128)) by ring.
        apply Z.mul_le_mono_nonneg_l; [nia|lia]. }
    apply Z.le_trans with (d1q * ((s1 + 2) * a - liq1)); [nia|]. apply Z.mul_le_mono_nonneg_l; [lia|]. nia.
Qed.

Lemma dist_fields c liq pa cr : get_liquidity_distribution c liq = Ok (pa, cr) ->
  li_perm_pct pa = c_partner_perm_pct c /\ li_vesting pa = c_partner_vesting c
  /\ li_perm_pct cr = c_creator_perm_pct c /\ li_vesting cr = c_creator_vesting c.
Proof.
  unfold get_liquidity_distribution. intros H.
  repeat (apply bind_ok in H; destruct H as (? & _ & H)). apply Ok_inj in H. inversion H; subst. auto.
Qed.

Lemma lock_exists c i now : created c -> vesting_of c (li_vesting i) ->
  0 <= li_perm i -> 0 <= li_vested i -> li_perm i + li_vested i <= U128_MAX ->
  0 <= now -> now + 63072000 <= U64_MAX -> exists vp, lock_params i now = Ok vp.
Proof.
  intros C V P0 V0 U N0 N. unfold lock_params, li_locked. rewrite sadd_intro by lia. cbn [bind].
  destruct (0 <? _); [|eauto]. destruct (0 <? li_vested i); [|eauto].
  destruct (params_exist (li_vesting i) (li_vested i) now (created_vest c _ C V) ltac:(lia) N0 N) as (vp & E).
  rewrite E. cbn [bind]. eauto.
Qed.

Lemma initial_info_exists c h eb eq :
  created c -> h = mig_handler c -> 0 < eb <= U64_MAX -> 0 < eq <= U64_MAX ->
  (h = Concentrated -> eq * Q128 / (c_mig_price c - MIN_SQRT_PRICE) <= U128_MAX) ->
  (h = Compounding -> compounding_validate eb eq (c_mig_price c) = Ok tt) ->
  exists price liq dead, initial_pool_information h (c_mig_price c) eb eq = Ok (price, liq, dead)
  /\ 0 < liq /\ 0 <= dead /\ liq + dead <= U128_MAX
  /\ MIN_SQRT_PRICE <= price <= MAX_SQRT_PRICE
  /\ Z.abs (price - c_mig_price c) * 100 <= Z.max price (c_mig_price c)
  /\ match h with
     | Concentrated => price = c_mig_price c
     | Compounding => exists s2, 0 <= s2 /\ liq + dead = s2 * eb /\ s2 <= price <= s2 + 1 /\ 0 < dead
          /\ eq * Q128 <= (price * price + 2 * price) * eb
     end.
Proof.
  intros C HH B Q HC HV. pose proof (created_cfg_ok _ C) as K.
  pose proof (ok_mig_max _ K) as KM. pose proof (ok_start_min _ K) as KS.
  pose proof (co_mig_lo _ _ (ok_curve _ K)) as KL. assert (M0 : 0 < MIN_SQRT_PRICE) by reflexivity.
  unfold initial_pool_information. destruct h.
  - specialize (HV eq_refl). unfold compounding_validate in HV.
    apply bind_ok in HV. destruct HV as ([s l] & X & HV). rewrite X. cbn [bind].
    apply ok_or_ok in X. apply compounding_value in X; try lia.
    destruct X as (s2 & A0 & LE & S2 & S12 & U & R & X1 & X2).
    apply bind_ok in HV. destruct HV as (u1 & V1 & HV). apply require_ok in V1.
    apply bind_ok in HV. destruct HV as (u2 & V2 & HV). apply require_ok in V2.
    apply bind_ok in HV. destruct HV as (m & M & HV). apply smul_ok in M. apply require_ok in HV.
    rewrite ssub_intro by lia. cbn [bind].
    assert (D0 : 0 < DEAD_LIQUIDITY) by reflexivity.
    exists s, (l - DEAD_LIQUIDITY), DEAD_LIQUIDITY. repeat split; try lia.
    exists s2. repeat split; lia.
  - destruct (concentrated_exists eb eq (c_mig_price c)) as (l & L); try lia; auto.
    rewrite L. cbn [bind]. apply concentrated_exact in L; try lia. destruct L as (L0 & L).
    assert (L1 : 1 <= l).
    { apply L. pose proof Q128_pos. split.
      - apply Z.le_trans with (1 * (1 * MAX_SQRT_PRICE)); [lia|].
        apply Z.mul_le_mono_nonneg; try lia. apply Z.mul_le_mono_nonneg_r; lia.
      - apply Z.le_trans with (1 * Q128); [|apply Z.mul_le_mono_nonneg_r; lia].
        unfold MAX_SQRT_PRICE, MIN_SQRT_PRICE, Q128 in *. lia. }
    exists (c_mig_price c), l, 0. repeat split; try lia.
Qed.

Lemma burn_exists w fb : cfg_ok (w_config w) ->
  0 <= p_partner_base (w_pool w) -> 0 <= p_protocol_base (w_pool w) -> 0 <= p_creator_base (w_pool w) -> 0 <= fb ->
  p_partner_base (w_pool w) + p_protocol_base (w_pool w) + p_creator_base (w_pool w) + fb <= w_bvault w ->
  w_bvault w <= U64_MAX -> 
  exists w', burn_rest w fb = Ok w' /\ w_positions w' = w_positions w /\ w_pool w' = w_pool w.
Proof.
  intros K A1 A2 A3 A4 S U. unfold burn_rest, get_protocol_and_trading_base_fee.
  rewrite sadd_intro by lia. cbn [bind]. rewrite sadd_intro by lia. cbn [bind].
  rewrite sadd_intro by lia. cbn [bind]. rewrite ssub_intro by lia. cbn [bind].
  unfold get_burnable_amount. destruct (is_fixed_supply (w_config w)) eqn:F.
  - destruct (ok_post _ K F) as (t & _ & _ & X & _). rewrite ssub_intro by lia. cbn [bind].
    destruct (0 <? _); [|eauto]. unfold burn_base. rewrite require_true by lia. cbn [bind].
    eexists. split; [reflexivity|]. split; reflexivity.
  - cbn [bind]. destruct (0 <? _); [|eauto]. unfold burn_base. rewrite require_true by lia. cbn [bind].
    eexists. split; [reflexivity|]. split; reflexivity.
Qed.

(** The shares of a liquidity amount: ordered, and complete. *)
Lemma dist_shares c liq : created c -> 0 <= liq <= U128_MAX ->
  exists pa cr, get_liquidity_distribution c liq = Ok (pa, cr)
  /\ (forall i, i = pa \/ i = cr -> 0 <= li_unlocked i /\ 0 <= li_perm i /\ 0 <= li_vested i
        /\ vesting_of c (li_vesting i) /\ 0 <= vi_percentage (li_vesting i) /\ 0 <= li_perm_pct i
        /\ vi_percentage (li_vesting i) + li_perm_pct i <= 100
        /\ li_total i = Ok (li_unlocked i + li_perm i + li_vested i))
  /\ li_unlocked pa + li_perm pa + li_vested pa + (li_unlocked cr + li_perm cr + li_vested cr) = liq.
Proof.
  intros C L. destruct (C26_distribution_complete c liq C L) as (pa & cr & D & A1 & A2 & A3 & A4 & A5 & A6 & S & T1 & T2).
  exists pa, cr. split; [exact D|]. destruct (dist_fields _ _ _ _ D) as (F1 & F2 & F3 & F4).
  destruct (created_pct c C) as [P1 P2 P3 P4 P5 P6 PS]. split; [|exact S].
  assert (N : forall x, 0 <= x -> 0 <= liq * x / 100) by (intros; apply div_nonneg; [nia|lia]).
  intros i [->| ->].
  - rewrite A1, A2, A3, F1, F2. rewrite A1, A2, A3 in T1. repeat split; auto; try lia. left; reflexivity.
  - rewrite A4, A5, F3, F4. rewrite A4, A5 in T2. pose proof (N _ P4). repeat split; auto; try lia. right; reflexivity.
Qed.

(** Whatever the pool's history, once it is ready to migrate to DAMM v2 the migration goes through:
    the program asks for two amounts of liquidity, at a price within one percent of the migration
    price, that the tokens set aside always pay for. *)
Theorem C52_damm_v2_migration_succeeds : forall w now,
  reachable w -> p_progress (w_pool w) = 2 -> c_migration_option (w_config w) = 1 ->
  0 <= now -> now + 63072000 <= U64_MAX ->
  let mig := c_mig_price (w_config w) in
  let h := if c_migrated_collect_mode (w_config w) =? 2 then Compounding else Concentrated in
  exists price liq1, 0 < liq1 /\ Z.abs (price - mig) * 100 <= Z.max price mig
  /\ (h = Concentrated -> price = mig)
  /\ forall d1b d1q, damm_takes h price liq1 d1b d1q ->
     exists liq2, 0 <= liq2
     /\ forall d2b d2q, damm_adds h price d1b d1q liq1 liq2 d2b d2q ->
        exists w', exec w (OMigrateV2 (mkExt true d1b d1q d1b d1q liq1 d2b d2q true) now) = Ok w'
        /\ p_progress (w_pool w') = 3
        /\ map po_total (w_positions w') = liq1 :: (if 0 <? liq2 then [liq2] else []).
Proof.
  intros w now R P O N0 N mig h. pose proof (reachable_inv _ R) as I. pose proof (reachable_bounded _ R) as BD.
  pose proof (iv_created _ I) as CR. pose proof (created_cfg_ok _ CR) as K.
  assert (HH : h = mig_handler (w_config w)).
  { unfold h, mig_handler, get_migration_handler. rewrite O. reflexivity. }
  destruct (split_exists w R P) as (fb & fq & eb & eq & SP & EB & EQ & S1 & S2).
  cbv zeta in *. rewrite <- HH in *. fold mig in S1, S2. specialize (S2 O).
  destruct (initial_info_exists (w_config w) h eb eq CR HH EB EQ S1 S2)
    as (price & liq & dead & INF & L0 & DE & LU & PR & PC & CASE).
  destruct (created_mig _ CR) as (_ & _ & MO & _).
  destruct (dist_shares (w_config w) liq CR ltac:(lia)) as (pa & cr & D & SH & SUM).
  destruct (SH pa ltac:(auto)) as (PA1 & PA2 & PA3 & PAV & PAW & PAX & PAY & PAT).
  destruct (SH cr ltac:(auto)) as (CR1 & CR2 & CR3 & CRV & CRW & CRX & CRY & CRT).
  pose proof (ok_mig_max _ K) as KM. pose proof (ok_start_min _ K) as KS.
  pose proof (co_mig_lo _ _ (ok_curve _ K)) as KL. fold mig in KM, KL, PC, CASE, INF.
  (* the two shares *)
  set (tp := li_unlocked pa + li_perm pa + li_vested pa) in *.
  set (tc := li_unlocked cr + li_perm cr + li_vested cr) in *.
  set (first := if tc <? tp then pa else cr). set (second := if tc <? tp then cr else pa).
  set (t1 := if tc <? tp then tp else tc).
  assert (F : 0 <= li_perm first /\ 0 <= li_vested first /\ vesting_of (w_config w) (li_vesting first)
     /\ li_total first = Ok t1 /\ li_perm first + li_vested first <= t1 /\ liq <= 2 * t1 /\ t1 <= liq).
  { unfold first, t1. destruct (tc <? tp) eqn:E; repeat split; auto; try (unfold tp, tc in *; lia). }
  assert (S : 0 <= li_unlocked second /\ vesting_of (w_config w) (li_vesting second)
     /\ 0 <= vi_percentage (li_vesting second) /\ 0 <= li_perm_pct second
     /\ vi_percentage (li_vesting second) + li_perm_pct second <= 100).
  { unfold second. destruct (tc <? tp); auto. }
  destruct F as (F1 & F2 & F3 & F4 & F5 & F6 & F7). destruct S as (Q1 & Q2 & Q3 & Q4 & Q5).
  exists price, (t1 + dead). split; [lia|]. split; [exact PC|].
  split; [intros HC; rewrite HC in CASE; exact CASE|].
  intros d1b d1q TK.
  assert (MR : MIN_SQRT_PRICE < mig < MAX_SQRT_PRICE) by lia.
  destruct (C44_initial_liquidity_affordable h mig eb eq price liq dead ltac:(lia) ltac:(lia) MR INF)
    as (_ & _ & AF & _).
  destruct (AF (t1 + dead) d1b d1q ltac:(lia) TK) as (AB & AQ). clear AF.
  (* the leftovers *)
  assert (RES : exists liq2, calculate_liquidity_delta h mig (eb - d1b) (eq - d1q) d1b d1q (t1 + dead) = Ok liq2
    /\ 0 <= liq2 <= U128_MAX
    /\ forall d2b d2q, damm_adds h price d1b d1q (t1 + dead) liq2 d2b d2q ->
         0 <= d2b <= eb - d1b /\ 0 <= d2q <= eq - d1q).
  { clearbody h. destruct h.
    - destruct CASE as (s2 & S0 & SE & SR & DP & SX). destruct TK as (TK1 & TK2).
      assert (M0 : 0 < MIN_SQRT_PRICE) by reflexivity.
      destruct (second_fits eb eq price s2 (t1 + dead) d1b d1q) as (D1 & D2 & G1 & G2); auto; try lia.
      assert (E : calculate_liquidity_delta Compounding mig (eb - d1b) (eq - d1q) d1b d1q (t1 + dead)
        = Ok (Z.min ((eb - d1b) * (t1 + dead) / d1b) ((eq - d1q) * (t1 + dead) / d1q))).
      { unfold calculate_liquidity_delta.
        assert (W1 : (eb - d1b) * (t1 + dead) <= U256_MAX).
        { apply Z.le_trans with (U64_MAX * U128_MAX); [apply Z.mul_le_mono_nonneg; lia|vm_compute; discriminate]. }
        assert (W2 : (eq - d1q) * (t1 + dead) <= U256_MAX).
        { apply Z.le_trans with (U64_MAX * U128_MAX); [apply Z.mul_le_mono_nonneg; lia|vm_compute; discriminate]. }
        rewrite mul_div_cast128_down_intro by lia. cbn [bind].
        rewrite mul_div_cast128_down_intro by lia. reflexivity. }
      eexists. split; [exact E|].
      destruct (C44_second_liquidity_affordable Compounding mig (eb - d1b) (eq - d1q) d1b d1q (t1 + dead) _
        ltac:(lia) ltac:(lia) MR D1 D2 ltac:(lia) E) as (Z1 & Z2 & _).
      split; [lia|]. intros d2b d2q AD. apply Z2. exact AD.
    - subst price. destruct (concentrated_exists (eb - d1b) (eq - d1q) mig) as (l2 & E); try lia.
      { apply Z.le_trans with (eq * Q128 / (mig - MIN_SQRT_PRICE)); [|auto].
        apply Z.div_le_mono; [lia|]. apply Z.mul_le_mono_nonneg_r; [discriminate|lia]. }
      exists l2. split; [exact E|]. apply concentrated_exact in E; try lia. destruct E as (E0 & E).
      split; [lia|]. intros d2b d2q (T1 & T2). destruct (proj1 (E l2) ltac:(lia)) as (C1 & C2).
      assert (M0 : 0 < MIN_SQRT_PRICE) by reflexivity. pose proof Q128_pos.
      split; split.
      + eapply ceil_frac_nonneg; [| |exact T1]; nia.
      + eapply ceil_frac_le; [|exact T1|exact C1]. nia.
      + eapply ceil_frac_nonneg; [| |exact T2]; nia.
      + eapply ceil_frac_le; [|exact T2|exact C2]. lia. }
  destruct RES as (liq2 & CL & L2 & ADD). exists liq2. split; [lia|]. intros d2b d2q AD.
  destruct (ADD _ _ AD) as (A2B & A2Q). clear ADD AD TK CASE.
  (* running the instruction *)
  pose proof (split_ok _ _ _ _ _ _ I SP) as (ib & iq & E1 & E2 & FB & FQ & IQ & IB & _).
  pose proof (iv_quote _ I) as QO. unfold quote_owed in QO. rewrite P in QO. cbn [Z.eqb Pos.eqb] in QO.
  pose proof (iv_nonneg _ I) as NN. pose proof (bd_base _ BD) as BB.
  pose proof (iv_complete _ I) as COMP.
  assert (QV : eq <= w_qvault w).
  { assert (TH : c_threshold (w_config w) <= p_quote (w_pool w)) by lia.
    destruct (surplus_parts _ _ K TH) as (U1 & U2 & U3 & _).
    pose proof (mig_fee_parts _ K) as (_ & V1 & V2 & _).
    unfold unless in QO. clear - QO U1 U2 U3 V1 V2 NN E2 IQ FQ.
    destruct (Z.testbit _ 2), (Z.testbit _ 1), (p_partner_surplus _ =? 1), (p_creator_surplus _ =? 1),
      (p_protocol_surplus _ =? 1); lia. }
  unfold exec. rewrite require_true.
  2:{ unfold args_ok, u64b. cbn [x_rbase x_rquote x_rliq]. clear - AB AQ EB EQ N0 N F7 F6 L0 LU DE. lia. }
  cbn [bind]. unfold migrate_v2. cbn [x_config_ok]. rewrite require_true by reflexivity. cbn [bind].
  unfold migration_ready. cbv zeta. rewrite require_true by (rewrite P; reflexivity). cbn [bind].
  rewrite require_true by (unfold is_curve_complete; lia). cbn [bind].
  rewrite require_true by lia. cbn [bind]. rewrite require_true by exact MO. cbn [bind].
  replace (get_migration_handler 1 (c_migrated_collect_mode (w_config w))) with h
    by (rewrite HH; unfold mig_handler; rewrite O; reflexivity).
  rewrite SP. cbn [bind]. fold mig. rewrite INF. cbn [bind]. rewrite D. cbn [bind].
  rewrite PAT. cbn [bind]. rewrite CRT. cbn [bind]. fold tp tc.
  set (quad := if tc <? tp then _ else _).
  assert (QD : exists o1 o2, quad = (first, second, o1, o2)).
  { unfold quad, first, second. destruct (tc <? tp); eauto. }
  destruct QD as (o1 & o2 & ->). rewrite F4. cbn [bind]. rewrite sadd_intro by lia. cbn [bind].
  destruct (lock_exists (w_config w) first now CR F3 F1 F2 ltac:(lia) N0 N) as (vp1 & VP1). rewrite VP1. cbn [bind].
  cbn [x_d1b x_d1q x_rbase x_rquote x_rliq x_second x_d2b x_d2q]. rewrite require_true by lia. cbn [bind].
  unfold pay_base at 1. rewrite require_true by (cbn; lia). cbn [bind].
  unfold pay_quote at 1. rewrite require_true by (cbn; lia). cbn [bind].
  rewrite ssub_intro by lia. cbn [bind]. rewrite ssub_intro by lia. cbn [bind].
  rewrite CL. cbn [bind].
  destruct (0 <? liq2) eqn:POS.
  - destruct (C27_adjust second liq2 Q1 ltac:(lia) Q3 Q4 Q5) as (sec' & ADJ & J1 & J2 & J3 & J4 & _).
    rewrite ADJ. cbn [bind].
    assert (JV : li_vesting sec' = li_vesting second).
    { clear - ADJ. unfold adjust_liquidity in ADJ. apply bind_ok in ADJ. destruct ADJ as (t & _ & ADJ).
      destruct (t =? 0); [apply Ok_inj in ADJ; subst; reflexivity|].
      repeat (apply bind_ok in ADJ; destruct ADJ as (? & _ & ADJ)). apply Ok_inj in ADJ. subst. reflexivity. }
    destruct (lock_exists (w_config w) sec' now CR ltac:(rewrite JV; auto) J2 J3 ltac:(lia) N0 N) as (vp2 & VP2).
    rewrite require_true by reflexivity. cbn [bind]. rewrite VP2. cbn [bind].
    rewrite require_true by lia. cbn [bind].
    unfold pay_base at 1. rewrite require_true by (cbn; lia). cbn [bind].
    unfold pay_quote at 1. rewrite require_true by (cbn; lia). cbn [bind].
    match goal with |- context [burn_rest ?x fb] => set (w5 := x) end.
    destruct (burn_exists w5 fb) as (w6 & BR & WP & WO); try (cbn; lia); [exact K|].
    rewrite BR. cbn [bind]. eexists. split; [reflexivity|]. split; [reflexivity|].
    cbn [w_positions set_w_pool]. rewrite WP. reflexivity.
  - cbn [bind]. match goal with |- context [burn_rest ?x fb] => set (w5 := x) end.
    destruct (burn_exists w5 fb) as (w6 & BR & WP & WO); try (cbn; lia); [exact K|].
    rewrite BR. cbn [bind]. eexists. split; [reflexivity|]. split; [reflexivity|].
    cbn [w_positions set_w_pool]. rewrite WP. reflexivity.
Qed.

(** The same for DAMM v1: the amounts are taken whole, and any amount of LP tokens minted in return
    is accepted. *)
Theorem C52_damm_v1_migration_succeeds : forall w lp m,
  reachable w -> p_progress (w_pool w) = 2 -> c_migration_option (w_config w) = 0 ->
  w_meta w = Some m -> 0 <= lp <= U64_MAX ->
  exists w', exec w (OMigrateV1 true lp) = Ok w' /\ p_progress (w_pool w') = 3 /\ w_lp w' = lp.
Proof.
  intros w lp m R P O M LP. pose proof (reachable_inv _ R) as I. pose proof (reachable_bounded _ R) as BD.
  pose proof (iv_created _ I) as CR. pose proof (created_cfg_ok _ CR) as K.
  assert (HH : mig_handler (w_config w) = Compounding).
  { unfold mig_handler, get_migration_handler. rewrite O. reflexivity. }
  destruct (split_exists w R P) as (fb & fq & eb & eq & SP & EB & EQ & _ & _). rewrite HH in SP.
  pose proof (split_ok _ _ _ _ _ _ I SP) as (ib & iq & E1 & E2 & FB & FQ & IQ & IB & _).
  pose proof (iv_quote _ I) as QO. unfold quote_owed in QO. rewrite P in QO. cbn [Z.eqb Pos.eqb] in QO.
  pose proof (iv_nonneg _ I) as NN. pose proof (bd_base _ BD) as BB. pose proof (iv_complete _ I) as COMP.
  assert (QV : eq <= w_qvault w).
  { assert (TH : c_threshold (w_config w) <= p_quote (w_pool w)) by lia.
    destruct (surplus_parts _ _ K TH) as (U1 & U2 & U3 & _).
    pose proof (mig_fee_parts _ K) as (_ & V1 & V2 & _).
    unfold unless in QO. clear - QO U1 U2 U3 V1 V2 NN E2 IQ FQ.
    destruct (Z.testbit _ 2), (Z.testbit _ 1), (p_partner_surplus _ =? 1), (p_creator_surplus _ =? 1),
      (p_protocol_surplus _ =? 1); lia. }
  assert (LU : 0 <= lp <= U128_MAX) by (unfold U128_MAX, U64_MAX in *; lia).
  destruct (dist_shares (w_config w) lp CR LU) as (pa & cr & D & SH & SUM).
  destruct (SH pa ltac:(auto)) as (PA1 & PA2 & PA3 & _).
  destruct (SH cr ltac:(auto)) as (CR1 & CR2 & CR3 & _).
  unfold exec. rewrite require_true by (unfold args_ok, u64b; lia). cbn [bind].
  unfold migrate_v1. rewrite require_true by reflexivity. cbn [bind].
  unfold migration_ready. cbv zeta. rewrite require_true by (rewrite P; reflexivity). cbn [bind].
  rewrite require_true by (unfold is_curve_complete; lia). cbn [bind].
  rewrite require_true by lia. cbn [bind]. rewrite M. cbn [ok_or bind]. rewrite SP. cbn [bind].
  unfold pay_base at 1. rewrite require_true by (cbn; lia). cbn [bind].
  unfold pay_quote at 1. rewrite require_true by (cbn; lia). cbn [bind].
  match goal with |- context [burn_rest ?x fb] => set (w5 := x) end.
  destruct (burn_exists w5 fb) as (w6 & BR & WP & WO); try (cbn; lia); [exact K|].
  rewrite BR. cbn [bind]. rewrite D. cbn [bind]. unfold to_damm_v1_distribution.
  do 4 (rewrite scast_intro by lia; cbn [bind]).
  eexists. split; [reflexivity|]. split; reflexivity.
Qed.

(** The steps before: a completed curve with token vesting can always have its vesting created, and
    a DAMM v1 pool its metadata. *)
Theorem C52_ready_for_migration : forall w, reachable w -> c_threshold (w_config w) <= p_quote (w_pool w) ->
  (p_progress (w_pool w) = 1 -> exists w', exec w OCreateLocker = Ok w' /\ p_progress (w_pool w') = 2)
  /\ (c_migration_option (w_config w) = 0 -> w_meta w = None ->
        exists w' m, exec w OCreateMetadata = Ok w' /\ w_meta w' = Some m).
Proof.
  intros w R C. pose proof (reachable_inv _ R) as I. pose proof (created_cfg_ok _ (iv_created _ I)) as K. split.
  - intros P. pose proof (iv_base _ I) as BO. unfold base_owed in BO. rewrite P in BO. cbn [Z.eqb Pos.eqb] in BO.
    destruct (ok_vest _ K) as (t & T & T0 & _). pose proof (lv_total_eq _ _ T) as TE.
    pose proof (ok_base _ K). pose proof (iv_nonneg _ I) as NN.
    unfold exec. rewrite require_true by reflexivity. cbn [bind]. unfold create_locker. cbv zeta.
    rewrite require_true by (rewrite P; reflexivity). cbn [bind]. rewrite T. cbn [bind].
    unfold pay_base. rewrite require_true by (unfold vesting_total in *; lia). cbn [bind].
    eexists. split; reflexivity.
  - intros O M. unfold exec. rewrite require_true by reflexivity. cbn [bind]. unfold create_v1_metadata.
    rewrite require_true by lia. cbn [bind]. rewrite require_true by (rewrite M; reflexivity). cbn [bind].
    eexists. eexists. split; reflexivity.
Qed.

(** ** Concrete cases *)
Definition readyA : world := run wA (histA1 ++ histA2 ++ firstn 4 histA3).
Definition readyC : world :=
  run wC [swp 503 None QuoteToBase 1 900000000000 0 1700009000 plain_view].
Definition readyB : world :=
  run wB [OCreateMetadata; swp 503 None QuoteToBase 1 900000000000 0 1700009000 plain_view].

(** A: a concentrated pool, with vesting. 148028147076670 base and 89820000000 quote are available. *)
Example C44_case_concentrated :
  initial_pool_information Concentrated (c_mig_price cfgA) 148028147076670 89820000000
    = Ok (1032825514542432788, 29592764599237961758950118007870, 0)
  /\ MIN_SQRT_PRICE < c_mig_price cfgA < MAX_SQRT_PRICE
  /\ damm_takes Concentrated 1032825514542432788 20714935219466573231265082605509 20056568052905 62874000000
  /\ calculate_liquidity_delta Concentrated (c_mig_price cfgA) (148028147076670 - 20056568052905)
       (89820000000 - 62874000000) 1 1 1 = Ok 8877829379771388527685035402361
  /\ damm_adds Concentrated (c_mig_price cfgA) 1 1 1 8877829379771388527685035402361 8595672022674 26946000000.
Proof. vm_compute. repeat split; congruence. Qed.

(** C: a constant-product pool, with dead liquidity. *)
Example C44_case_compounding :
  initial_pool_information Compounding (c_mig_price cfgC) 31835822174223 99800000000
    = Ok (1032825514542420218, 32880849416128186722202318479014,
          1844674407370955161600)
  /\ damm_takes Compounding 1032825514542420218 16440424709908767768472114401107 15917911088005 49900000003
  /\ calculate_liquidity_delta Compounding (c_mig_price cfgC) (31835822174223 - 15917911088005)
       (99800000000 - 49900000003) 15917911088005 49900000003 16440424709908767768472114401107
     = Ok 16440424707931963194253232780101
  /\ damm_adds Compounding 1032825514542420218 15917911088005 49900000003 16440424709908767768472114401107
       16440424707931963194253232780101 15917911086092 49899999997.
Proof. vm_compute. repeat split; congruence. Qed.

Example C52_case_concentrated : reachable readyA
  /\ p_progress (w_pool readyA) = 2 /\ c_migration_option (w_config readyA) = 1
  /\ is_ok (exec readyA (OMigrateV2 (mkExt true 20056568052905 62874000000 20056568052905 62874000000
       20714935219466573231265082605509 8595672022674 26946000000 true) 1700001000)) = true.
Proof. split; [apply reachA|]. vm_compute. auto. Qed.

Example C52_case_compounding : reachable readyC
  /\ p_progress (w_pool readyC) = 2 /\ c_migration_option (w_config readyC) = 1
  /\ is_ok (exec readyC (OMigrateV2 (mkExt true 15917911088005 49900000003 15917911088005 49900000003
       16440424709908767768472114401107 15917911086092 49899999997 true) 1700010000)) = true.
Proof. split; [apply reachC|]. vm_compute. auto. Qed.

Example C52_case_v1 : reachable readyB /\ p_progress (w_pool readyB) = 2
  /\ c_migration_option (w_config readyB) = 0 /\ w_meta readyB <> None
  /\ is_ok (exec readyB (OMigrateV1 true 123456789)) = true.
Proof. split; [apply reachB|]. vm_compute. repeat split; congruence. Qed.

Example C52_case_locker :
  let w := run wA (histA1 ++ histA2) in
  reachable w /\ c_threshold (w_config w) <= p_quote (w_pool w) /\ p_progress (w_pool w) = 1.
Proof. split; [apply reachA|]. vm_compute. split; congruence. Qed.

Print Assumptions C44_initial_liquidity_affordable.
Print Assumptions C44_second_liquidity_affordable.
Print Assumptions C52_damm_v2_migration_succeeds.
Print Assumptions C52_damm_v1_migration_succeeds.
Print Assumptions C52_ready_for_migration.
