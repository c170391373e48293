(** * C83: a day after the migration, a tenth of the liquidity really in the new pool is still locked. *)
From Coq Require Import ZArith List Bool Lia ZifyBool.
From Verif Require Import Base MathModel CurveModel FeeModel ConfigModel PoolModel TxModel
  SystemModel Fixtures Spec Lib CalcProofs ConfigProofs CurveProofs InvProofs InvReach FixturesReach Effects Frame Bounds
  PropMath PropConfig PropVest PropMig PropOpen.
Import ListNotations.
Open Scope Z_scope.
#[local] Arguments Z.pow : simpl never.
#[local] Arguments Z.testbit : simpl never.

(** ** Specification

    What a vesting schedule has released at time [t]: nothing before the cliff, then the cliff amount and one
    instalment per full period (division by a zero period length gives no instalment). *)
Definition released (v : vesting_params) (t : Z) : Z :=
  if t <? vp_cliff_point v then 0
  else vp_cliff_unlock v + Z.min ((t - vp_cliff_point v) / vp_frequency v) (vp_periods v) * vp_per_period v.

(** The liquidity of a position that its owner cannot withdraw at time [t]: the permanently locked part, and
    what the schedule has not released. *)
Definition still_locked (t : Z) (po : position) : Z :=
  po_perm po + match po_vesting po with Some v => po_vested po - released v t | None => 0 end.

Definition sum_of {A} (f : A -> Z) (l : list A) : Z := fold_right (fun a s => f a + s) 0 l.

(** The liquidity that one token of either kind stands for, rounded up: the rounding of token amounts cannot
    be finer than this. *)
Definition one_token (h : handler) (price : Z) : Z :=
  match h with
  | Concentrated => Z.max (price * MAX_SQRT_PRICE / (MAX_SQRT_PRICE - price)) (2 ^ 128 / (price - MIN_SQRT_PRICE)) + 1
  | Compounding => Z.max price (2 ^ 128 / price) + 1
  end.

(** A constant-product pool keeps a fixed amount of liquidity for ever (compounding_liquidity.rs:14,88). *)
Definition dead_liquidity (h : handler) : Z :=
  match h with Concentrated => 0 | Compounding => 100 * 2 ^ 64 end.

(** DAMM v2 takes the tokens its formulas ask for, and reports the new pool's reserves. *)
Definition damm_as_specified (h : handler) (x : damm_v2_ext) (first : position) : Prop :=
  damm_takes h (po_price first) (po_total first) (x_d1b x) (x_d1q x)
  /\ x_rbase x = x_d1b x /\ x_rquote x = x_d1q x /\ x_rliq x = po_total first.

(** ** The locked part of a schedule after a day *)
Definition day_periods (v : liq_vesting) : Z :=
  if 0 <? vi_frequency v then Z.min ((86400 - vi_cliff v) / vi_frequency v) (vi_periods v) else 0.
Definition rem (v : liq_vesting) (tot : Z) : Z :=
  if 86400 <? vi_cliff v then tot else per_of v tot * (vi_periods v - day_periods v).

Lemma day_periods_range v : vest_wf v -> vi_cliff v <= 86400 -> 0 <= day_periods v <= vi_periods v.
Proof.
  intros (_ & _ & _ & N & F & C & _) L. unfold day_periods. destruct (0 <? vi_frequency v) eqn:E; [|lia].
  assert (0 <= (86400 - vi_cliff v) / vi_frequency v) by (apply Z.div_pos; lia). lia.
Qed.

Lemma rem_le v tot : vest_wf v -> 0 <= tot <= U128_MAX -> 0 <= rem v tot <= tot.
Proof.
  intros W T. unfold rem. destruct (86400 <? vi_cliff v) eqn:E; [lia|].
  pose proof (day_periods_range v W ltac:(lia)) as D. pose proof (per_bounds v tot W T) as (P0 & _ & P2 & _).
  split; [apply Z.mul_nonneg_nonneg; lia|].
  apply Z.le_trans with (per_of v tot * vi_periods v); [apply Z.mul_le_mono_nonneg_l; lia|lia].
Qed.

Lemma per_pos v tot : vest_wf v -> 0 <= tot <= U128_MAX -> 0 < per_of v tot -> 0 < vi_periods v /\ 0 < vi_frequency v.
Proof.
  intros W T PP. pose proof (per_bounds v tot W T) as (_ & _ & _ & P3).
  destruct W as (_ & P & B & NP & F & CF & BN & CM & CD).
  assert (0 < vi_periods v). { unfold per_of in PP. destruct (0 <? vi_periods v) eqn:E2; lia. }
  assert (vi_bps_per_period v <> 0). { intros Z0. specialize (P3 H). rewrite Z0 in P3. lia. }
  split; [lia|]. apply CD. apply Z.mul_pos_pos; lia.
Qed.

Lemma day_locked v tot now q : vest_wf v -> 0 <= tot <= U128_MAX -> damm_v2_vesting_parameters v tot now = Ok q ->
  tot - released q (now + 86400) = rem v tot.
Proof.
  intros W T H. apply params_value in H. cbv zeta in H.
  pose proof (per_pos v tot W T) as PP. pose proof (per_bounds v tot W T) as (P0 & _ & P2 & _).
  pose proof W as (_ & _ & _ & NP & F & CF & _). unfold rem, day_periods, released.
  set (per := per_of v tot) in *. clearbody per.
  assert (C : (per = 0 /\ q = mkVestingParams (now + Z.max (vi_cliff v) 1) 0 tot 0 0)
     \/ (0 < per /\ q = mkVestingParams (now + vi_cliff v) per (tot - per * vi_periods v) (vi_frequency v) (vi_periods v))).
  { destruct H as [(-> & _)|(X & ->)]; [|left; auto]. destruct (per =? 0) eqn:E; [left|right]; split; auto; lia. }
  clear H. destruct C as [(-> & ->)|(PS & ->)]; cbn [vp_cliff_point vp_frequency vp_periods vp_per_period vp_cliff_unlock].
  - destruct (86400 <? vi_cliff v) eqn:E.
    + replace (now + 86400 <? now + Z.max (vi_cliff v) 1) with true by lia. lia.
    + replace (now + 86400 <? now + Z.max (vi_cliff v) 1) with false by lia. lia.
  - destruct (PP PS) as (N1 & N2). replace (0 <? vi_frequency v) with true by lia.
    replace (now + 86400 - (now + vi_cliff v)) with (86400 - vi_cliff v) by ring.
    destruct (86400 <? vi_cliff v) eqn:E.
    + replace (now + 86400 <? now + vi_cliff v) with true by lia. lia.
    + replace (now + 86400 <? now + vi_cliff v) with false by lia. ring.
Qed.

Lemma per_mono v a b : vest_wf v -> 0 <= a <= b -> per_of v a <= per_of v b.
Proof.
  intros (_ & _ & B & N & _) H. unfold per_of. destruct (0 <? vi_periods v) eqn:E; [|lia].
  apply Z.div_le_mono; [lia|]. apply Z.div_le_mono; [lia|]. apply Z.mul_le_mono_nonneg_r; [|lia].
  apply Z.mul_nonneg_nonneg; lia.
Qed.

(** Monotone, and falling by at most the fall of the total, up to rounding. *)
Lemma rem_mono v a b : vest_wf v -> 0 <= a <= b -> b <= U128_MAX -> rem v a <= rem v b <= rem v a + (b - a) + 65535.
Proof.
  intros W H U. unfold rem. destruct (86400 <? vi_cliff v) eqn:E; [lia|].
  pose proof (day_periods_range v W ltac:(lia)) as D. pose proof (per_mono v a b W H) as M.
  pose proof (per_bounds v a W ltac:(lia)) as (A0 & _ & _ & A3). pose proof (per_bounds v b W ltac:(lia)) as (B0 & _ & _ & B3).
  destruct W as (_ & _ & B & N & _ & _ & BN & _).
  set (m := vi_periods v - day_periods v) in *. assert (M0 : 0 <= m <= vi_periods v) by lia. clearbody m.
  split; [apply Z.mul_le_mono_nonneg_r; lia|].
  destruct (Z.eq_dec (vi_periods v) 0) as [Z0|NZ]; [replace m with 0 by lia; lia|].
  specialize (A3 ltac:(lia)). specialize (B3 ltac:(lia)).
  set (bp := vi_bps_per_period v) in *. set (pa := per_of v a) in *. set (pb := per_of v b) in *. clearbody pa pb.
  assert (X1 : (10000 * pb - 10000 * pa) * m <= ((b - a) * bp + 9999) * m) by (apply Z.mul_le_mono_nonneg_r; lia).
  assert (X2 : bp * m <= 10000).
  { apply Z.le_trans with (bp * vi_periods v); [apply Z.mul_le_mono_nonneg_l; lia|lia]. }
  assert (X3 : (b - a) * (bp * m) <= (b - a) * 10000) by (apply Z.mul_le_mono_nonneg_l; lia).
  lia.
Qed.

(** The share promised by the config, as an amount. *)
Lemma share_rem v liq b : vest_wf v -> 0 <= liq <= U128_MAX -> liquidity_locked_bps_at v 86400 = Ok b ->
  b * liq <= 10000 * rem v (liq * vi_percentage v / 100) + 700000000.
Proof.
  intros W L HB. assert (T : 0 <= liq * vi_percentage v / 100 <= U128_MAX).
  { pose proof W as (_ & P & _). assert (0 <= liq * vi_percentage v <= liq * 100).
    { split; [apply Z.mul_nonneg_nonneg; lia|apply Z.mul_le_mono_nonneg_l; lia]. }
    split; [apply Z.div_pos; lia|]. apply Z.div_le_upper_bound; lia. }
  destruct (params_exist v _ 0 W T ltac:(lia) ltac:(discriminate)) as (vp & VP).
  pose proof (day_locked _ _ _ _ W T VP) as DL.
  pose proof (params_value _ _ _ _ VP) as PV. cbv zeta in PV. pose proof (per_bounds v _ W T) as (P0 & _ & P2 & _).
  pose proof W as (_ & _ & _ & NP & F & CF & _).
  assert (G : 0 <= vp_per_period vp /\ 0 <= vp_periods vp /\ 0 <= vp_frequency vp /\ 0 <= vp_cliff_unlock vp
    /\ vp_cliff_unlock vp + vp_per_period vp * vp_periods vp <= U128_MAX
    /\ (vp_frequency vp = 0 -> vp_cliff_unlock vp + 0 = vp_cliff_unlock vp)).
  { set (tot := liq * vi_percentage v / 100) in *. clearbody tot.
    destruct PV as [(-> & PL)|(PZ & ->)]; [destruct (per_of v tot =? 0) eqn:PZ|];
      cbn [vp_cliff_point vp_frequency vp_periods vp_per_period vp_cliff_unlock]; repeat split; lia. }
  destruct G as (G1 & G2 & G3 & G4 & G5 & _).
  pose proof (unlocked_value vp (0 + 86400) G1 G2 G3 G4 G5) as U.
  destruct (vest_share v liq 0 b vp _ W L HB VP U) as (_ & S).
  replace (if 0 + 86400 <? vp_cliff_point vp then 0 else _) with (released vp (0 + 86400)) in S; [lia|].
  unfold released. destruct (0 + 86400 <? vp_cliff_point vp); [reflexivity|].
  destruct (vp_frequency vp =? 0) eqn:FZ; [|reflexivity]. replace (vp_frequency vp) with 0 by lia. rewrite Zdiv_0_r. lia.
Qed.

Lemma due_locked c liq pa cr : created c -> 0 <= liq <= U128_MAX -> get_liquidity_distribution c liq = Ok (pa, cr) ->
  liq <= 10 * (li_perm pa + rem (li_vesting pa) (li_vested pa) + (li_perm cr + rem (li_vesting cr) (li_vested cr)) + 200000).
Proof.
  intros C L D. destruct (C28_config_share c C) as (bps & TB & MB).
  destruct (C26_distribution_complete c liq C L) as (pa' & cr' & D' & _ & PP & PV & CP & CV & _).
  rewrite D in D'. apply Ok_inj in D'. injection D' as <- <-. destruct (dist_fields _ _ _ _ D) as (_ & F2 & _ & F4).
  assert (V1 : li_vesting pa = c_partner_vesting c) by (clear - D; unfold get_liquidity_distribution in D; minv; injection D as <- <-; reflexivity).
  assert (V2 : li_vesting cr = c_creator_vesting c) by (clear - D; unfold get_liquidity_distribution in D; minv; injection D as <- <-; reflexivity).
  unfold total_locked_bps_at in TB.
  apply bind_ok in TB. destruct TB as (b1 & B1 & TB). apply bind_ok in TB. destruct TB as (b2 & B2 & TB).
  apply bind_ok in TB. destruct TB as (b3 & B3 & TB). apply bind_ok in TB. destruct TB as (b4 & B4 & TB).
  apply bind_ok in TB. destruct TB as (x & X & TB). apply bind_ok in TB. destruct TB as (y & Y & TB).
  apply smul_ok in B3, B4. apply sadd_ok in X, Y, TB.
  destruct B3 as (-> & _), B4 as (-> & _), X as (-> & _), Y as (-> & _), TB as (-> & _).
  assert (W1 : vest_wf (c_partner_vesting c)) by (apply (created_vest c); [exact C|left; auto]).
  assert (W2 : vest_wf (c_creator_vesting c)) by (apply (created_vest c); [exact C|right; auto]).
  pose proof (share_rem _ liq b1 W1 L B1) as S1. pose proof (share_rem _ liq b2 W2 L B2) as S2.
  rewrite <- PV in S1. rewrite <- CV in S2. rewrite V1, V2.
  assert (Q : forall z r, r = liq * z / 100 -> 100 * z * liq <= 10000 * r + 10000).
  { intros z r ->. pose proof (Z.div_mod (liq * z) 100 ltac:(lia)). pose proof (Z.mod_pos_bound (liq * z) 100 ltac:(lia)). lia. }
  pose proof (Q _ _ PP) as Q1. pose proof (Q _ _ CP) as Q2.
  assert (Z1 : 1000 * liq <= (b1 + c_partner_perm_pct c * 100 + b2 + c_creator_perm_pct c * 100) * liq).
  { apply Z.mul_le_mono_nonneg_r; lia. }
  lia.
Qed.

Lemma position_locked i now vp o t p : vest_wf (li_vesting i) -> 0 <= li_perm i -> 0 <= li_vested i <= U128_MAX ->
  lock_params i now = Ok vp ->
  still_locked (now + 86400) (mkPosition o t (li_perm i) (li_vested i) vp p)
  = li_perm i + rem (li_vesting i) (li_vested i).
Proof.
  intros W P V H. pose proof (lock_follows i now vp o t p P ltac:(lia) H) as (F0 & F1).
  unfold still_locked. cbn [po_vested po_vesting po_perm] in *.
  destruct (Z.eq_dec (li_vested i) 0) as [Z0|NZ].
  - rewrite (F0 Z0). pose proof (rem_le _ _ W V). lia.
  - destruct (F1 ltac:(lia)) as (q & -> & Q). rewrite (day_locked _ _ _ _ W V Q). reflexivity.
Qed.

(** The part of the second position that stays locked, against what was due. *)
Lemma adjusted_locked i liq l2 i' d : vest_wf (li_vesting i) -> 0 <= liq <= U128_MAX ->
  0 <= li_unlocked i -> li_perm i = liq * li_perm_pct i / 100 ->
  li_vested i = liq * vi_percentage (li_vesting i) / 100 ->
  0 <= li_perm_pct i -> vi_percentage (li_vesting i) + li_perm_pct i <= 100 ->
  0 <= l2 <= U128_MAX -> 0 <= d -> li_unlocked i + li_perm i + li_vested i - d <= l2 ->
  adjust_liquidity i l2 = Ok i' ->
  vest_wf (li_vesting i') /\ 0 <= li_perm i' /\ 0 <= li_vested i' <= U128_MAX
  /\ li_perm i + rem (li_vesting i) (li_vested i)
     <= li_perm i' + rem (li_vesting i') (li_vested i') + d + 65535.
Proof.
  intros W L F0 PE VE PP SP L2 D0 D ADJ. pose proof W as (_ & VP & _).
  destruct (C27_adjust i l2 F0 L2 ltac:(lia) PP SP) as (i2 & A2 & J1 & J2 & J3 & J4 & J5 & J6).
  rewrite ADJ in A2. apply Ok_inj in A2. subst i2. rewrite (adjusted _ _ _ ADJ).
  split; [exact W|]. split; [exact J2|]. split; [lia|].
  set (v := li_vesting i) in *. set (vp := vi_percentage v) in *. set (pp := li_perm_pct i) in *.
  assert (VU : 0 <= li_vested i <= U128_MAX).
  { rewrite VE. split; [apply div_nonneg; [apply Z.mul_nonneg_nonneg; lia|lia]|].
    apply Z.div_le_upper_bound; [lia|]. assert (liq * vp <= liq * 100) by (apply Z.mul_le_mono_nonneg_l; lia). lia. }
  pose proof (rem_le v (li_vested i) W VU) as RL. pose proof (rem_le v (li_vested i') W ltac:(lia)) as RL'.
  destruct (Z.eq_dec (vp + pp) 0) as [Z0|NZ].
  { assert (vp = 0) as V0 by lia. assert (pp = 0) as P0 by lia. rewrite V0 in VE. rewrite P0 in PE.
    rewrite Z.mul_0_r in VE, PE. change (0 / 100) with 0 in *. lia. }
  destruct (J6 ltac:(lia)) as (K1 & _ & K3). clear J5 J6.
  set (rest := li_perm i' + li_vested i') in *.
  destruct (Z.le_gt_cases (li_vested i') (li_vested i)) as [LE|GT].
  - pose proof (rem_mono v _ _ W (conj J3 LE) ltac:(lia)) as M. unfold rest in *. lia.
  - pose proof (rem_mono v (li_vested i) (li_vested i') W ltac:(lia) ltac:(lia)) as M.
    assert (R0 : 0 <= rest) by (unfold rest; lia).
    pose proof (Z.mul_div_le (rest * vp) (vp + pp) ltac:(lia)) as E1. rewrite <- K3 in E1.
    pose proof (Z.div_mod (liq * vp) 100 ltac:(lia)) as E2. rewrite <- VE in E2.
    pose proof (Z.mod_pos_bound (liq * vp) 100 ltac:(lia)) as E3.
    (* rest / (vp + pp) exceeds liq / 100 *)
    assert (V0 : vp <> 0). { intros Z0. rewrite Z0 in K3. rewrite Z.mul_0_r in K3. change (0 / (0 + pp)) with (0 / pp) in K3. rewrite Zdiv_0_l in K3. lia. }
    assert (G : liq * (vp + pp) < 100 * rest).
    { destruct (Z.le_gt_cases (100 * rest) (liq * (vp + pp))) as [X|X]; [|lia]. exfalso.
      assert (Y : 100 * rest * vp <= liq * (vp + pp) * vp) by (apply Z.mul_le_mono_nonneg_r; lia).
      assert (Y2 : (vp + pp) * (100 * li_vested i') <= (vp + pp) * (liq * vp)) by lia.
      apply Z.mul_le_mono_pos_l in Y2; lia. }
    assert (P1 : rest * pp <= li_perm i' * (vp + pp)).
    { unfold rest in *. lia. }
    pose proof (Z.mul_div_le (liq * pp) 100 ltac:(lia)) as E4. rewrite <- PE in E4.
    assert (P2 : liq * (vp + pp) * pp <= 100 * rest * pp) by (apply Z.mul_le_mono_nonneg_r; lia).
    assert (P3 : (vp + pp) * (100 * li_perm i) <= (vp + pp) * (100 * li_perm i')).
    { apply Z.le_trans with (liq * (vp + pp) * pp); [|lia].
      replace (liq * (vp + pp) * pp) with ((vp + pp) * (liq * pp)) by ring. apply Z.mul_le_mono_nonneg_l; lia. }
    apply Z.mul_le_mono_pos_l in P3; lia.
Qed.

(** ** How much liquidity the leftovers buy *)
Lemma second_concentrated eb eq p T A d1b d1q l2 : 0 <= eb -> 0 <= eq -> MIN_SQRT_PRICE < p < MAX_SQRT_PRICE ->
  concentrated_initial_liquidity eb eq p = Ok T -> 0 <= A ->
  range_base p A d1b -> range_quote p A d1q -> 0 <= eb - d1b -> 0 <= eq - d1q ->
  concentrated_initial_liquidity (eb - d1b) (eq - d1q) p = Ok l2 ->
  l2 <= T - A <= l2 + one_token Concentrated p.
Proof.
  intros B Q P HT A0 (R1 & R2) (S1 & S2) LB LQ H2. assert (P0 : 0 < MIN_SQRT_PRICE) by reflexivity. pose proof Q128_pos as Q0.
  apply concentrated_exact in HT; auto. apply concentrated_exact in H2; auto.
  destruct HT as (_ & HT), H2 as (_ & H2).
  destruct (proj1 (HT T) ltac:(lia)) as (T1 & T2). destruct (proj1 (H2 l2) ltac:(lia)) as (L1 & L2).
  assert (U : l2 + A <= T). { apply HT. split; lia. }
  split; [lia|].
  assert (V : T - A - one_token Concentrated p <= l2); [|lia].
  apply H2. unfold one_token. change (2 ^ 128) with Q128.
  pose proof (Z.div_mod (p * MAX_SQRT_PRICE) (MAX_SQRT_PRICE - p) ltac:(lia)) as E1.
  pose proof (Z.mod_pos_bound (p * MAX_SQRT_PRICE) (MAX_SQRT_PRICE - p) ltac:(lia)) as E2.
  pose proof (Z.div_mod Q128 (p - MIN_SQRT_PRICE) ltac:(lia)) as E3.
  pose proof (Z.mod_pos_bound Q128 (p - MIN_SQRT_PRICE) ltac:(lia)) as E4.
  set (x := p * MAX_SQRT_PRICE / (MAX_SQRT_PRICE - p)) in *. set (y := Q128 / (p - MIN_SQRT_PRICE)) in *. clearbody x y.
  set (m := Z.max x y). assert (x <= m /\ y <= m) by lia. clearbody m.
  assert (M1 : (x + 1) * (MAX_SQRT_PRICE - p) <= (m + 1) * (MAX_SQRT_PRICE - p)) by (apply Z.mul_le_mono_nonneg_r; lia).
  assert (M2 : (y + 1) * (p - MIN_SQRT_PRICE) <= (m + 1) * (p - MIN_SQRT_PRICE)) by (apply Z.mul_le_mono_nonneg_r; lia).
  split; lia.
Qed.

Lemma second_product eb eq p s2 A d1b d1q l2 : 0 < eb -> 0 <= eq -> 0 < p -> 0 <= s2 -> s2 <= p <= s2 + 1 ->
  p * s2 * eb <= eq * Q128 -> 0 < A -> s2 * eb <= 2 * A ->
  PropMig.product_base p A d1b -> PropMig.product_quote p A d1q -> 0 <= eb - d1b -> 0 <= eq - d1q ->
  calculate_liquidity_delta Compounding p (eb - d1b) (eq - d1q) d1b d1q A = Ok l2 ->
  l2 <= s2 * eb - A + eb /\ s2 * eb - A <= l2 + 2 * one_token Compounding p.
Proof.
  intros B Q P S0 S12 X A0 HALF (R1 & R2) (T1 & T2) LB LQ H. pose proof Q128_pos as Q0.
  assert (D1 : 0 < d1b) by nia. assert (P1 : 0 < A * p) by nia. assert (D2 : 0 < d1q) by nia.
  unfold calculate_liquidity_delta in H. apply bind_ok in H. destruct H as (lb & HB & H). apply bind_ok in H. destruct H as (lq & HQ & H).
  apply mul_div_cast128_down in HB, HQ. destruct HB as (HB & _), HQ as (HQ & _). apply Ok_inj in H.
  assert (E : forall L, L <= l2 <-> L * d1b <= (eb - d1b) * A /\ L * d1q <= (eq - d1q) * A).
  { intros L. rewrite <- (div_ge _ _ L D1), <- (div_ge _ _ L D2). lia. }
  clear H HB HQ. split.
  - destruct (proj1 (E l2) ltac:(lia)) as (G & _).
    (* (l2 + A) * d1b <= eb * A <= eb * p * d1b *)
    assert (Y : (l2 + A) * d1b <= (eb * p) * d1b).
    { apply Z.le_trans with (eb * A); [lia|]. replace (eb * p * d1b) with (eb * (d1b * p)) by ring.
      apply Z.mul_le_mono_nonneg_l; lia. }
    apply Z.mul_le_mono_pos_r in Y; [|lia]. assert (eb * p <= eb * (s2 + 1)) by (apply Z.mul_le_mono_nonneg_l; lia). lia.
  - set (o := one_token Compounding p). assert (O1 : p <= o) by (unfold o, one_token; lia).
    assert (O2 : Q128 <= o * p).
    { unfold o, one_token. change (2 ^ 128) with Q128. pose proof (Z.div_mod Q128 p ltac:(lia)).
      pose proof (Z.mod_pos_bound Q128 p ltac:(lia)).
      assert ((Q128 / p + 1) * p <= (Z.max p (Q128 / p) + 1) * p) by (apply Z.mul_le_mono_nonneg_r; lia). lia. }
    clearbody o. set (T := s2 * eb) in *. assert (T0 : 0 <= T) by (unfold T; nia).
    assert (V : T - A - 2 * o <= l2); [|lia].
    destruct (Z.le_gt_cases (T - 2 * o) 0) as [NEG|POS].
    { apply E. assert (K1 : (T - A - 2 * o) * d1b <= - A * d1b) by (apply Z.mul_le_mono_nonneg_r; lia).
      assert (K2 : (T - A - 2 * o) * d1q <= - A * d1q) by (apply Z.mul_le_mono_nonneg_r; lia).
      assert (0 <= eb * A) by nia. assert (0 <= eq * A) by nia. split; lia. }
    apply E. split.
    + (* base: (T - 2o) * d1b <= eb * A *)
      assert (K : (T - 2 * o) * d1b <= eb * A); [|lia].
      assert (K1 : (T - 2 * o) * (d1b * p) <= (T - 2 * o) * (A + p)) by (apply Z.mul_le_mono_nonneg_l; lia).
      assert (K2 : T * p <= 2 * o * A).
      { apply Z.le_trans with (2 * A * p); [apply Z.mul_le_mono_nonneg_r; lia|].
        replace (2 * A * p) with (2 * A * p) by ring. replace (2 * o * A) with (2 * A * o) by ring. apply Z.mul_le_mono_nonneg_l; lia. }
      assert (K3 : T * A <= eb * p * A). { apply Z.mul_le_mono_nonneg_r; [lia|]. unfold T. replace (s2 * eb) with (eb * s2) by ring. apply Z.mul_le_mono_nonneg_l; lia. }
      assert (0 <= 2 * o * p) by nia.
      assert (K4 : p * ((T - 2 * o) * d1b) <= p * (eb * A)) by lia. apply Z.mul_le_mono_pos_l in K4; lia.
    + assert (K : (T - 2 * o) * d1q <= eq * A); [|lia].
      assert (K1 : (T - 2 * o) * (d1q * Q128) <= (T - 2 * o) * (A * p + Q128)) by (apply Z.mul_le_mono_nonneg_l; lia).
      assert (K2 : T * Q128 <= 2 * o * (A * p)).
      { apply Z.le_trans with (2 * A * Q128); [apply Z.mul_le_mono_nonneg_r; lia|].
        replace (2 * o * (A * p)) with (2 * A * (o * p)) by ring. apply Z.mul_le_mono_nonneg_l; lia. }
      assert (K3 : T * (A * p) <= eq * Q128 * A).
      { replace (T * (A * p)) with (p * s2 * eb * A) by (unfold T; ring). apply Z.mul_le_mono_nonneg_r; lia. }
      assert (0 <= 2 * o * Q128) by nia.
      assert (K4 : Q128 * ((T - 2 * o) * d1q) <= Q128 * (eq * A)) by lia. apply Z.mul_le_mono_pos_l in K4; lia.
Qed.

(** ** Theorems

    Migration to DAMM v2, whatever the pool's history: of the liquidity in the positions of the new pool, at
    least a tenth cannot be withdrawn a day later, up to the liquidity of two tokens and 300000 units (a unit is
    2^-64 of a liquidity). *)
Theorem C83_tenth_locked_damm_v2 : forall w x now w' first rest, reachable w ->
  exec w (OMigrateV2 x now) = Ok w' -> w_positions w' = first :: rest ->
  let h := if c_migrated_collect_mode (w_config w) =? 2 then Compounding else Concentrated in
  damm_as_specified h x first ->
  sum_of po_total (w_positions w')
  <= 10 * (dead_liquidity h + sum_of (still_locked (now + 86400)) (w_positions w')
           + 2 * one_token h (po_price first) + 300000).
Proof.
  intros w x now w' f r R H PS h SP. pose proof (exec_args _ _ _ H) as A. unfold exec in H. rewrite A in H. cbn [require bind] in H.
  apply migrate_v2_positions in H. cbv zeta in H.
  destruct H as (h' & fb & fq & eb & eq & price & liq & dead & pa & cr & tp & tc & first & second & o1 & o2 & t1 & vp1
    & rest & HD & P2 & O & S & INF & D & TP & TC & OR & T1 & V1 & PS' & RS).
  rewrite PS in PS'. injection PS' as Ef Er. subst r.
  assert (HE : h' = h) by (rewrite HD; reflexivity).
  assert (HH : h = mig_handler (w_config w)) by (unfold mig_handler; rewrite O, <- HD; symmetry; exact HE).
  clear HD. rewrite HE in *. clear HE h'.
  pose proof (reachable_inv _ R) as I. pose proof (iv_created _ I) as C. pose proof (created_cfg_ok _ C) as K.
  destruct (split_exists w R P2) as (fb' & fq' & eb' & eq' & S' & EB & EQ & SC & SV). cbv zeta in S', SC, SV.
  rewrite <- HH in S', SC, SV. rewrite S in S'. apply Ok_inj in S'. injection S' as <- <- <- <-. specialize (SV O).
  destruct (initial_info_exists (w_config w) h eb eq C HH EB EQ SC SV)
    as (price' & liq' & dead' & INF' & L0 & DE & LU & PR & _ & CASE).
  rewrite INF in INF'. apply Ok_inj in INF'. injection INF' as <- <- <-.
  assert (LB : 0 <= liq <= U128_MAX) by lia.
  destruct (dist_shares (w_config w) liq C LB) as (pa' & cr' & D' & SH & SUM). rewrite D in D'. apply Ok_inj in D'. injection D' as <- <-.
  pose proof (due_locked _ _ _ _ C LB D) as DL.
  destruct (C26_distribution_complete _ _ C LB) as (pa' & cr' & D' & _ & PP & PV & CP & CV & _).
  rewrite D in D'. apply Ok_inj in D'. injection D' as <- <-. destruct (dist_fields _ _ _ _ D) as (F1 & F2 & F3 & F4).
  rewrite <- F1 in PP. rewrite <- F2 in PV. rewrite <- F3 in CP. rewrite <- F4 in CV.
  (* the two shares, in order *)
  set (due i := li_unlocked i + li_perm i + li_vested i) in *.
  assert (ITEM : forall i, i = pa \/ i = cr -> vest_wf (li_vesting i) /\ 0 <= li_unlocked i /\ 0 <= li_perm i
     /\ 0 <= li_vested i <= U128_MAX /\ li_perm i = liq * li_perm_pct i / 100
     /\ li_vested i = liq * vi_percentage (li_vesting i) / 100 /\ 0 <= li_perm_pct i
     /\ vi_percentage (li_vesting i) + li_perm_pct i <= 100 /\ li_total i = Ok (due i)).
  { intros i E. destruct (SH i E) as (X1 & X2 & X3 & X4 & X5 & X6 & X7 & X8).
    split; [apply (created_vest (w_config w)); auto|]. split; [exact X1|]. split; [exact X2|].
    assert (li_vested i <= liq).
    { destruct (SH pa ltac:(auto)) as (Y1 & Y2 & Y3 & _). destruct (SH cr ltac:(auto)) as (Z1 & Z2 & Z3 & _).
      destruct E as [->| ->]; lia. }
    split; [lia|]. split; [destruct E as [->| ->]; assumption|]. split; [destruct E as [->| ->]; assumption|]. auto. }
  assert (FS : (first = pa \/ first = cr) /\ (second = pa \/ second = cr)
     /\ due first + due second = liq /\ due second <= due first
     /\ liq <= 10 * (li_perm first + rem (li_vesting first) (li_vested first)
          + (li_perm second + rem (li_vesting second) (li_vested second)) + 200000)).
  { destruct (ITEM pa ltac:(auto)) as (_ & _ & _ & _ & _ & _ & _ & _ & X1).
    destruct (ITEM cr ltac:(auto)) as (_ & _ & _ & _ & _ & _ & _ & _ & X2).
    rewrite TP in X1. rewrite TC in X2. apply Ok_inj in X1, X2. fold (due pa) (due cr) in SUM. rewrite X1, X2 in OR.
    clear -OR SUM DL. destruct (due cr <? due pa) eqn:E; injection OR as -> -> -> ->;
      (split; [auto|]; split; [auto|]; split; [lia|]; split; lia). }
  clear OR DL SUM SH TP TC. destruct FS as (FI & SI & SUM & LE & DL).
  destruct (ITEM first FI) as (W1 & U1 & P1 & VV1 & _ & _ & _ & _ & T1'). rewrite T1 in T1'. apply Ok_inj in T1'. subst t1.
  destruct (ITEM second SI) as (W2 & U2 & PN2 & VV2 & PE2 & VE2 & PC2 & PT2 & _). clear ITEM.
  rewrite PS. cbn [sum_of fold_right]. fold (sum_of po_total rest) (sum_of (still_locked (now + 86400)) rest).
  rewrite Ef. rewrite position_locked by auto. cbn [po_total po_price].
  rewrite Ef in SP. destruct SP as (TK & XB & XQ & XL). cbn [po_total po_price] in TK, XL.
  rewrite XB, XQ, XL in RS.
  (* what the leftovers buy *)
  assert (MR : MIN_SQRT_PRICE < c_mig_price (w_config w) < MAX_SQRT_PRICE).
  { pose proof (ok_mig_max _ K). pose proof (ok_start_min _ K). pose proof (co_mig_lo _ _ (ok_curve _ K)). lia. }
  assert (M0 : 0 < MIN_SQRT_PRICE) by reflexivity.
  destruct (C44_initial_liquidity_affordable h (c_mig_price (w_config w)) eb eq price liq dead ltac:(lia) ltac:(lia) MR INF)
    as (_ & _ & AF & _).
  assert (D0 : 0 <= due second) by (unfold due; lia). assert (D1 : 0 <= due first) by (unfold due; lia).
  destruct (AF (due first + dead) (x_d1b x) (x_d1q x) ltac:(lia) TK) as (AB & AQ). clear AF.
  assert (SEC : forall l2, calculate_liquidity_delta h (c_mig_price (w_config w)) (eb - x_d1b x) (eq - x_d1q x)
      (x_d1b x) (x_d1q x) (due first + dead) = Ok l2 ->
      due second <= l2 + 2 * one_token h price
      /\ l2 + liq + dead <= liq + due second + 10 * dead_liquidity h /\ 0 <= one_token h price).
  { intros l2 CL. clearbody h. clear -CL CASE INF TK AB AQ EB EQ MR M0 SUM LE D0 D1 L0 PR. destruct h.
    - unfold initial_pool_information in INF. apply bind_ok in INF. destruct INF as ([s l] & CPL & INF). apply ok_or_ok in CPL.
      apply bind_ok in INF. destruct INF as (d & SS & INF). apply Ok_inj in INF. injection INF as -> -> <-.
      apply ssub_ok in SS. destruct SS as (SE & SS).
      apply compounding_value in CPL; [|lia|lia]. destruct CPL as (s2 & _ & -> & S2 & S12 & _ & _ & X & _).
      destruct TK as (TK1 & TK2).
      change (calculate_liquidity_delta Compounding (c_mig_price (w_config w))) with (calculate_liquidity_delta Compounding price) in CL.
      assert (DP : 0 < DEAD_LIQUIDITY) by reflexivity.
      destruct (second_product eb eq price s2 (due first + DEAD_LIQUIDITY) (x_d1b x) (x_d1q x) l2) as (Y1 & Y2); auto; try lia.
      unfold dead_liquidity. change (100 * 2 ^ 64) with DEAD_LIQUIDITY.
      assert (U64_MAX <= DEAD_LIQUIDITY) by (vm_compute; discriminate).
      assert (0 <= one_token Compounding price) by (unfold one_token; lia). lia.
    - cbn [calculate_liquidity_delta] in CL. unfold initial_pool_information in INF. apply bind_ok in INF.
      destruct INF as (l & CI & INF). apply Ok_inj in INF. inversion INF; subst; clear INF. destruct TK as (TK1 & TK2).
      set (p := c_mig_price (w_config w)) in *.
      destruct (second_concentrated eb eq p (due first + due second) (due first + 0) (x_d1b x) (x_d1q x) l2) as (Y1 & Y2); auto; try lia.
      unfold dead_liquidity. lia. }
  destruct RS as [(-> & l2 & L2 & CL)|(l2 & sec & vp2 & L2 & CL & ADJ & V2 & ->)]; cbn [sum_of fold_right].
  - destruct (SEC l2 CL) as (Y1 & Y2 & Y3). pose proof (rem_le _ _ W2 VV2). unfold due in *. lia.
  - destruct (SEC l2 CL) as (Y1 & Y2 & Y3).
    assert (L2U : l2 <= U128_MAX).
    { clear -CL. unfold calculate_liquidity_delta in CL. destruct h.
      - apply bind_ok in CL. destruct CL as (a & CA & CL). apply bind_ok in CL. destruct CL as (b & CB & CL).
        apply mul_div_cast128_down in CA. apply Ok_inj in CL. lia.
      - unfold concentrated_initial_liquidity in CL. apply bind_ok in CL. destruct CL as (a & CA & CL).
        apply bind_ok in CL. destruct CL as (b & CB & CL). unfold liquidity_from_delta_quote in CB.
        repeat (apply bind_ok in CB; destruct CB as (? & _ & CB)). apply scast_ok in CB.
        destruct (b <? a); [apply Ok_inj in CL; lia|]. apply scast_ok in CL. lia. }
    destruct (adjusted_locked second liq l2 sec (2 * one_token h price) W2 LB U2 PE2 VE2 PC2 PT2 ltac:(lia) ltac:(lia)
      ltac:(unfold due in *; lia) ADJ) as (W3 & P3 & V3 & DIFF).
    rewrite position_locked by auto. cbn [po_total]. lia.
Qed.

(** Migration to DAMM v1: at least a tenth of the LP tokens go to the locked part. *)
Theorem C83_tenth_locked_damm_v1 : forall w ok lp w', reachable w -> exec w (OMigrateV1 ok lp) = Ok w' ->
  exists m, w_meta w' = Some m /\ lp <= 10 * (m_partner_locked m + m_creator_locked m + 2).
Proof.
  intros w ok lp w' R H. pose proof (exec_args _ _ _ H) as A. unfold exec in H. rewrite A in H. cbn [require bind] in H.
  apply migrate_v1_eff in H.
  destruct H as (m & m' & fb & fq & eb & eq & b & mb & _ & _ & O & _ & _ & _ & _ & _ & _ & _ & M & (da & db & D & E) & _).
  exists m'. split; [exact M|]. subst m'. cbn [m_partner_locked m_creator_locked].
  pose proof (iv_created _ (reachable_inv _ R)) as C.
  assert (LB : 0 <= lp <= U128_MAX) by (unfold args_ok, u64b in A; unfold U128_MAX, U64_MAX in *; lia).
  destruct (C28_config_share _ C) as (bps & TB & MB).
  destruct (created_pct _ C) as [A1 A2 A3 A4 A5 A6 S].
  destruct (C26_distribution_complete _ _ C LB) as (pa' & cr' & D' & _ & PP & _ & CP & _).
  rewrite D in D'. apply Ok_inj in D'. injection D' as <- <-.
  unfold total_locked_bps_at in TB.
  apply bind_ok in TB. destruct TB as (b1 & B1 & TB). apply bind_ok in TB. destruct TB as (b2 & B2 & TB).
  apply bind_ok in TB. destruct TB as (b3 & B3 & TB). apply bind_ok in TB. destruct TB as (b4 & B4 & TB).
  apply bind_ok in TB. destruct TB as (u & X & TB). apply bind_ok in TB. destruct TB as (y & Y & TB).
  apply smul_ok in B3, B4. apply sadd_ok in X, Y, TB.
  destruct B3 as (-> & _), B4 as (-> & _), X as (-> & _), Y as (-> & _), TB as (-> & _).
  assert (ZV : forall v, vesting_of (w_config w) v -> liquidity_locked_bps_at v 86400 = Ok 0).
  { intros v V. pose proof (pk_v1 _ (created_pcts _ C) O) as (Z1 & Z2). destruct (created_vest _ _ C V) as (SHP & _).
    assert (vi_percentage v = 0) by (destruct V as [E|E]; rewrite E; assumption).
    destruct SHP as [E|(_ & E)]; [rewrite E; reflexivity|lia]. }
  rewrite (ZV _ (or_introl eq_refl)) in B1. rewrite (ZV _ (or_intror eq_refl)) in B2. apply Ok_inj in B1, B2. subst b1 b2.
  assert (Q : forall z r, r = lp * z / 100 -> 100 * z * lp <= 10000 * r + 10000).
  { intros z r ->. pose proof (Z.div_mod (lp * z) 100 ltac:(lia)). pose proof (Z.mod_pos_bound (lp * z) 100 ltac:(lia)). lia. }
  pose proof (Q _ _ PP) as Q1. pose proof (Q _ _ CP) as Q2.
  assert (Z1 : 1000 * lp <= (0 + c_partner_perm_pct (w_config w) * 100 + 0 + c_creator_perm_pct (w_config w) * 100) * lp).
  { apply Z.mul_le_mono_nonneg_r; lia. }
  lia.
Qed.

(** ** Cases *)
Definition x_case_a := mkExt true 20056568052905 62874000000 20056568052905 62874000000
  20714935219466573231265082605509 8595672022674 26946000000 true.
Definition x_case_c := mkExt true 15917911088005 49900000003 15917911088005 49900000003
  16440424709908767768472114401107 15917911086092 49899999997 true.

Definition case_sums (w : world) (x : damm_v2_ext) (now : Z) : res (Z * Z * Z) :=
  do w' <- exec w (OMigrateV2 x now) ;;
  Ok (sum_of po_total (w_positions w'), sum_of (still_locked (now + 86400)) (w_positions w'),
      match w_positions w' with f :: _ => one_token (mig_handler (w_config w)) (po_price f) | [] => 0 end).

(** A concentrated pool: 45% is locked after a day, and the tolerance is 2 in 10^11. *)
Example C83_case_concentrated : reachable readyA /\ c_migrated_collect_mode (w_config readyA) <> 2
  /\ (forall w' first rest, exec readyA (OMigrateV2 x_case_a 1700001000) = Ok w' -> w_positions w' = first :: rest ->
        damm_as_specified Concentrated x_case_a first)
  /\ case_sums readyA x_case_a 1700001000
     = Ok (29592764599237961758950118007870, 13316744069657082791527553103535, 329467430407904272534).
Proof.
  split; [apply reachA|]. split; [vm_compute; congruence|]. split; [|vm_compute; reflexivity].
  intros w' first rest H P.
  assert (E : (do w' <- exec readyA (OMigrateV2 x_case_a 1700001000) ;; Ok (map (fun p => (po_total p, po_price p)) (w_positions w')))
    = Ok [(20714935219466573231265082605509, 1032825514542432788); (8877829379771388527685035402361, 1032825514542432788)])
    by (vm_compute; reflexivity).
  rewrite H in E. cbn [bind] in E. rewrite P in E. apply Ok_inj in E. cbn [map] in E.
  assert (E1 : po_total first = 20714935219466573231265082605509) by congruence.
  assert (E2 : po_price first = 1032825514542432788) by congruence.
  unfold damm_as_specified, damm_takes, range_base, range_quote, ceil_frac. rewrite E1, E2.
  vm_compute. repeat split; congruence.
Qed.

(** A constant-product pool: half is locked for ever. *)
Example C83_case_compounding : reachable readyC /\ c_migrated_collect_mode (w_config readyC) = 2
  /\ (forall w' first rest, exec readyC (OMigrateV2 x_case_c 1700010000) = Ok w' -> w_positions w' = first :: rest ->
        damm_as_specified Compounding x_case_c first)
  /\ case_sums readyC x_case_c 1700010000
     = Ok (32880849417840730962725347181208, 16440424708064093361101159239507, 329467429037804219834).
Proof.
  split; [apply reachC|]. split; [vm_compute; congruence|]. split; [|vm_compute; reflexivity].
  intros w' first rest H P.
  assert (E : (do w' <- exec readyC (OMigrateV2 x_case_c 1700010000) ;; Ok (map (fun p => (po_total p, po_price p)) (w_positions w')))
    = Ok [(16440424709908767768472114401107, 1032825514542420218); (16440424707931963194253232780101, 1032825514542420218)])
    by (vm_compute; reflexivity).
  rewrite H in E. cbn [bind] in E. rewrite P in E. apply Ok_inj in E. cbn [map] in E.
  assert (E1 : po_total first = 16440424709908767768472114401107) by congruence.
  assert (E2 : po_price first = 1032825514542420218) by congruence.
  unfold damm_as_specified, damm_takes, PropMig.product_base, product_quote, ceil_frac. rewrite E1, E2.
  vm_compute. repeat split; congruence.
Qed.

(** DAMM v1. *)
Example C83_case_v1 : reachable readyB
  /\ (do w' <- exec readyB (OMigrateV1 true 123456789) ;;
      match w_meta w' with Some m => Ok (m_partner_locked m, m_creator_locked m) | None => Err EOther end)
     = Ok (24691357, 12345678).
Proof. split; [apply reachB|]. vm_compute. reflexivity. Qed.

Print Assumptions C83_tenth_locked_damm_v2.
Print Assumptions C83_tenth_locked_damm_v1.
