(** * Vesting: C28, C45. *)
From Coq Require Import ZArith QArith List Bool Lia ZifyBool Lqa.
From Verif Require Import Base MathModel CurveModel FeeModel ConfigModel PoolModel TxModel
  SystemModel Spec Lib ConfigProofs PropConfig InvProofs InvReach Effects Frame PropLife PropFees Fixtures FixturesReach.
Import ListNotations.
Open Scope Z_scope.
#[local] Arguments Z.pow : simpl never.

(** ** What is known about a vesting schedule of an accepted config *)
Definition vesting_of (c : config) (v : liq_vesting) : Prop :=
  v = c_partner_vesting c \/ v = c_creator_vesting c.

Definition vest_wf (v : liq_vesting) : Prop :=
  (v = mkLiqVesting 0 0 0 0 0 0 \/ (vi_initialized v = 1 /\ 0 < vi_percentage v))
  /\ 0 <= vi_percentage v <= 100 /\ 0 <= vi_bps_per_period v <= 65535 /\ 0 <= vi_periods v <= 65535
  /\ 0 <= vi_frequency v /\ 0 <= vi_cliff v
  /\ vi_bps_per_period v * vi_periods v <= 10000
  /\ vi_cliff v <= 63072000
  /\ (0 < vi_bps_per_period v * vi_periods v ->
        0 < vi_frequency v /\ vi_cliff v + vi_frequency v * vi_periods v <= 63072000).

(** What the program computes, as formulas. [per] is the floor of the per-period share. *)
Definition per_of (v : liq_vesting) (total : Z) : Z :=
  if 0 <? vi_periods v then total * (vi_bps_per_period v * vi_periods v) / 10000 / vi_periods v else 0.

Lemma params_value v total now vp :
  damm_v2_vesting_parameters v total now = Ok vp ->
  let per := per_of v total in
  vp = (if per =? 0 then mkVestingParams (now + Z.max (vi_cliff v) 1) 0 total 0 0
        else mkVestingParams (now + vi_cliff v) per (total - per * vi_periods v) (vi_frequency v) (vi_periods v))
  /\ per * vi_periods v <= total \/ per = 0 /\ vp = mkVestingParams (now + Z.max (vi_cliff v) 1) 0 total 0 0.
Proof.
  intros H per. unfold damm_v2_vesting_parameters in H.
  apply bind_ok in H. destruct H as (tb & TB & H). apply smul_ok in TB. destruct TB as (-> & _).
  apply bind_ok in H. destruct H as (ac & AC & H). apply mul_div_cast128_down in AC. destruct AC as (-> & _).
  apply bind_ok in H. destruct H as (pp & PP & H).
  assert (E : pp = per).
  { unfold per, per_of. destruct (0 <? vi_periods v).
    - apply sdiv_ok in PP. destruct PP as (-> & _). reflexivity.
    - apply Ok_inj in PP. auto. }
  subst pp. destruct (per =? 0) eqn:Z0.
  - right. apply bind_ok in H. destruct H as (m & M & H). apply smul_ok in M. destruct M as (-> & _).
    apply bind_ok in H. destruct H as (cu & CU & H). apply ssub_ok in CU. destruct CU as (-> & _).
    apply bind_ok in H. destruct H as (cp & CP & H). apply sadd_ok in CP. destruct CP as (-> & _).
    apply Ok_inj in H. assert (per = 0) as -> by lia. split; auto. rewrite <- H. f_equal. lia.
  - left. apply bind_ok in H. destruct H as (m & M & H). apply smul_ok in M. destruct M as (-> & _).
    apply bind_ok in H. destruct H as (cu & CU & H). apply ssub_ok in CU. destruct CU as (-> & B).
    apply bind_ok in H. destruct H as (cp & CP & H). apply sadd_ok in CP. destruct CP as (-> & _).
    apply Ok_inj in H. split; [|exact B]. auto.
Qed.

Lemma per_bounds v total : vest_wf v -> 0 <= total <= U128_MAX ->
  let per := per_of v total in
  0 <= per
  /\ total * vi_bps_per_period v * vi_periods v - 9999 * vi_periods v
     <= 10000 * (per * vi_periods v) <= total * vi_bps_per_period v * vi_periods v
  /\ per * vi_periods v <= total
  /\ (0 < vi_periods v -> total * vi_bps_per_period v - 9999 <= 10000 * per <= total * vi_bps_per_period v).
Proof.
  intros W T per. destruct W as (_ & P & B & N & _ & _ & BN & _).
  set (b := vi_bps_per_period v) in *. set (n := vi_periods v) in *.
  assert (T0 : 0 <= total * (b * n)) by (repeat apply Z.mul_nonneg_nonneg; lia).
  assert (T1 : total * (b * n) <= total * 10000) by (apply Z.mul_le_mono_nonneg_l; lia).
  unfold per, per_of. fold b. fold n. destruct (0 <? n) eqn:E.
  - rewrite Z.div_div by lia. set (x := total * (b * n)) in *.
    assert (PB : 0 <= x / (10000 * n)) by (apply Z.div_pos; lia).
    pose proof (Z.div_mod x (10000 * n) ltac:(lia)) as DM. pose proof (Z.mod_pos_bound x (10000 * n) ltac:(lia)) as MB.
    set (q := x / (10000 * n)) in *. clearbody q. set (r := x mod (10000 * n)) in *. clearbody r.
    assert (A1 : 10000 * (q * n) <= x < 10000 * (q * n) + 10000 * n) by lia.
    assert (X : x = total * b * n) by (unfold x; ring). clearbody x.
    assert (LO : total * b - 9999 <= 10000 * q <= total * b).
    { split.
      - assert (total * b * n < (10000 * q + 10000) * n) by lia. apply Z.mul_lt_mono_pos_r in H; lia.
      - assert (10000 * q * n <= total * b * n) by lia. apply Z.mul_le_mono_pos_r in H; lia. }
    split; [exact PB|]. split; [|split; [lia|intros _; exact LO]].
    split; [|lia]. assert ((total * b - 9999) * n <= 10000 * q * n) by (apply Z.mul_le_mono_nonneg_r; lia). lia.
  - assert (n = 0) as -> by lia. lia.
Qed.

Lemma params_exist v total now : vest_wf v -> 0 <= total <= U128_MAX ->
  0 <= now -> now + 63072000 <= U64_MAX ->
  exists vp, damm_v2_vesting_parameters v total now = Ok vp.
Proof.
  intros W T N0 N. pose proof (per_bounds v total W T) as (P0 & P1 & P2 & _).
  destruct W as (_ & P & B & NP & F & C & BN & CM & _).
  unfold damm_v2_vesting_parameters. rewrite smul_intro by (unfold U16_MAX; lia). cbn [bind].
  assert (T0 : 0 <= total * (vi_bps_per_period v * vi_periods v)) by (repeat apply Z.mul_nonneg_nonneg; lia).
  assert (T1 : total * (vi_bps_per_period v * vi_periods v) <= total * 10000) by (apply Z.mul_le_mono_nonneg_l; lia).
  rewrite mul_div_cast128_down_intro; [|unfold U128_MAX, U256_MAX, MAX_BASIS_POINT in *; lia|reflexivity|].
  2:{ apply Z.div_le_upper_bound; unfold MAX_BASIS_POINT, U128_MAX in *; lia. }
  cbn [bind].
  assert (E : (if 0 <? vi_periods v then sdiv (total * (vi_bps_per_period v * vi_periods v) / MAX_BASIS_POINT) (vi_periods v)
               else Ok 0) = Ok (per_of v total)).
  { unfold per_of, MAX_BASIS_POINT. destruct (0 <? vi_periods v) eqn:Z0; [|reflexivity]. apply sdiv_intro. lia. }
  rewrite E. cbn [bind]. destruct (per_of v total =? 0).
  - rewrite smul_intro by (unfold U128_MAX; lia). cbn [bind]. rewrite ssub_intro by lia. cbn [bind].
    rewrite sadd_intro by lia. cbn [bind]. eexists; reflexivity.
  - rewrite smul_intro by lia. cbn [bind]. rewrite ssub_intro by lia. cbn [bind].
    rewrite sadd_intro by lia. cbn [bind]. eexists; reflexivity.
Qed.

Lemma vq_wf q now : lvparams_typed q -> vq_percentage q <= 100 -> vq_validate q now = Ok tt ->
  vest_wf (to_liquidity_vesting_info q).
Proof.
  intros (T1 & T2 & T3 & T4 & T5) P H. unfold u8ok, u16ok, u32ok, U8_MAX, U16_MAX, U32_MAX in *.
  unfold vq_validate in H. destruct (vq_is_zero q) eqn:Z0.
  { unfold to_liquidity_vesting_info. rewrite Z0. unfold vq_is_zero in Z0. unfold vest_wf. simpl.
    assert (vq_percentage q = 0) as -> by lia. assert (vq_bps_per_period q = 0) as -> by lia.
    assert (vq_periods q = 0) as -> by lia. assert (vq_cliff q = 0) as -> by lia.
    assert (vq_frequency q = 0) as -> by lia. repeat split; auto; lia. }
  set (v := to_liquidity_vesting_info q) in *.
  assert (V1 : vi_initialized v = 1) by (unfold v, to_liquidity_vesting_info; rewrite Z0; reflexivity).
  assert (V2 : vi_percentage v = vq_percentage q) by reflexivity.
  assert (V3 : vi_bps_per_period v = vq_bps_per_period q) by reflexivity.
  assert (V4 : vi_periods v = vq_periods q) by reflexivity.
  assert (V5 : vi_frequency v = vq_frequency q) by reflexivity.
  assert (V6 : vi_cliff v = vq_cliff q) by reflexivity.
  rewrite <- V2, <- V3, <- V4, <- V5, <- V6 in *. clearbody v. clear V2 V3 V4 V5 V6 Z0 q.
  apply bind_ok in H. destruct H as (tot & TO & H). apply mul_div_cast128_down in TO. destruct TO as (TE & _ & TM).
  apply bind_ok in H. destruct H as (vp & VP & H).
  apply params_value in VP. cbv zeta in VP.
  unfold validate_vesting_parameters in H.
  apply bind_ok in H. destruct H as (u1 & A1 & H). apply require_ok in A1.
  apply bind_ok in H. destruct H as (u2 & A2 & H).
  apply bind_ok in H. destruct H as (u3 & A3 & H).
  apply bind_ok in H. destruct H as (a & A4 & H). apply ssub_ok in A4. destruct A4 as (-> & A4).
  apply bind_ok in H. destruct H as (b & A5 & H). apply smul_ok in A5. destruct A5 as (-> & A5).
  apply bind_ok in H. destruct H as (d & A6 & H). apply sadd_ok in A6. destruct A6 as (-> & A6).
  apply bind_ok in H. destruct H as (u4 & A7 & H). apply require_ok in A7.
  apply bind_ok in H. destruct H as (t & A8 & H). apply require_ok in H.
  unfold vesting_total_lock in A8. apply bind_ok in A8. destruct A8 as (m & M & A8). apply smul_ok in M.
  destruct M as (-> & _). apply sadd_ok in A8. destruct A8 as (-> & _).
  unfold MAX_LOCK_DURATION_IN_SECONDS in *. clear A1 A4.
  assert (TL : 100 * tot > U128_MAX * vi_percentage v - 100).
  { pose proof (Z.div_mod (U128_MAX * vi_percentage v) 100 ltac:(lia)).
    pose proof (Z.mod_pos_bound (U128_MAX * vi_percentage v) 100 ltac:(lia)). lia. }
  assert (TU : 100 * tot <= U128_MAX * vi_percentage v).
  { rewrite TE. apply Z.mul_div_le. lia. }
  (* the schedule takes at most everything *)
  assert (TOT0 : 0 < tot).
  { destruct VP as [(-> & X)|(X & ->)].
    - destruct (per_of v tot =? 0); simpl in H; lia.
    - simpl in H. lia. }
  assert (PC : 0 < vi_percentage v).
  { destruct (Z.le_gt_cases (vi_percentage v) 0); [|lia]. assert (vi_percentage v = 0) by lia. rewrite H1 in TU. lia. }
  assert (BIG : 65536 * 10000 < tot) by (unfold U128_MAX in *; lia).
  assert (BN : vi_bps_per_period v * vi_periods v <= 10000 /\
     (0 < vi_bps_per_period v * vi_periods v -> per_of v tot <> 0)).
  { set (x := vi_bps_per_period v * vi_periods v) in *.
    destruct (0 <? vi_periods v) eqn:EP.
    2:{ assert (x = 0) by (unfold x; assert (vi_periods v = 0) as -> by lia; ring). lia. }
    assert (X0 : 0 <= x) by (apply Z.mul_nonneg_nonneg; lia).
    assert (PE : per_of v tot = tot * x / (10000 * vi_periods v)).
    { unfold per_of. rewrite EP. fold x. rewrite Z.div_div by lia. reflexivity. }
    pose proof (Z.div_mod (tot * x) (10000 * vi_periods v) ltac:(lia)) as DM.
    pose proof (Z.mod_pos_bound (tot * x) (10000 * vi_periods v) ltac:(lia)) as MB.
    rewrite <- PE in DM. set (per := per_of v tot) in *. clearbody per.
    assert (LE : per * vi_periods v <= tot) by (destruct VP as [(_ & X)|(-> & _)]; lia).
    assert (XB : tot * x < 10000 * tot + 10000 * vi_periods v) by lia.
    split.
    - destruct (Z.le_gt_cases x 10000); [auto|exfalso].
      assert (tot * 10001 <= tot * x) by (apply Z.mul_le_mono_nonneg_l; lia). lia.
    - intros XP PZ. rewrite PZ in DM. assert (tot * 1 <= tot * x) by (apply Z.mul_le_mono_nonneg_l; lia). lia. }
  destruct BN as (BN & PNZ). unfold vest_wf.
  assert (CL : vi_cliff v <= 63072000 /\ (0 < vi_bps_per_period v * vi_periods v ->
        0 < vi_frequency v /\ vi_cliff v + vi_frequency v * vi_periods v <= 63072000)).
  { destruct VP as [(-> & X)|(PZ & ->)].
    - destruct (per_of v tot =? 0) eqn:EZ; simpl in A5, A6, A7, A3.
      + split; [lia|]. intros Y. specialize (PNZ Y). lia.
      + assert (0 <= vi_frequency v * vi_periods v) by (apply Z.mul_nonneg_nonneg; lia).
        split; [lia|]. intros Y. split; [|lia].
        assert (0 < vi_periods v).
        { destruct (Z.le_gt_cases (vi_periods v) 0); [|lia]. assert (E0 : vi_periods v = 0) by lia. rewrite E0 in Y. lia. }
        replace (0 <? vi_periods v) with true in A3 by lia. apply require_ok in A3. lia.
    - simpl in A6, A7. split; [lia|]. intros Y. specialize (PNZ Y). lia. }
  destruct CL as (CL1 & CL2). repeat split; auto; try lia.
Qed.

Lemma created_vest c v : created c -> vesting_of c v -> vest_wf v.
Proof.
  intros C V. pose proof (created_pct c C) as PC. pose proof C as H. apply created_inv in H.
  destruct H as (q & sup & spl & now & mig & sb & ba & fl & pre & post & qm & fc & lr & qa & bps
                 & T & _ & B).
  pose proof (cb_valid _ _ _ _ _ _ _ _ _ _ _ _ _ _ _ _ B) as VA.
  apply validate_inv in VA. destruct VA as (_ & VA). pose proof (va_pct _ _ _ VA) as P.
  pose proof (pt_pl _ T). pose proof (pt_pp _ T). pose proof (pt_cl _ T). pose proof (pt_cp _ T).
  pose proof (pt_pv _ T) as TP. pose proof (pt_cv _ T) as TC.
  assert (X : vq_validate (q_partner_vesting q) now = Ok tt /\ vq_validate (q_creator_vesting q) now = Ok tt).
  { destruct (va_opt _ _ _ VA) as [O|O].
    - destruct (va_v1 _ _ _ VA O) as (_ & _ & _ & _ & X3 & X4). unfold vq_validate. rewrite X3, X4. auto.
    - destruct (va_v2 _ _ _ VA O) as (_ & _ & X). exact X. }
  assert (PCT : 0 <= vq_percentage (q_partner_vesting q) <= 255 /\ 0 <= vq_percentage (q_creator_vesting q) <= 255).
  { destruct TP as (TP & _). destruct TC as (TC & _). unfold u8ok, U8_MAX in *. lia. }
  unfold u8ok, U8_MAX in *. rewrite (cb_eq _ _ _ _ _ _ _ _ _ _ _ _ _ _ _ _ B) in V.
  destruct V as [->| ->]; simpl.
  - apply (vq_wf _ now); [exact TP|lia|apply X].
  - apply (vq_wf _ now); [exact TC|lia|apply X].
Qed.

(** ** C45 *)

(** Unlocking of a position over time, exactly as the vesting program releases it. *)
Lemma unlocked_value vp t : 0 <= vp_per_period vp -> 0 <= vp_periods vp -> 0 <= vp_frequency vp ->
  0 <= vp_cliff_unlock vp ->
  vp_cliff_unlock vp + vp_per_period vp * vp_periods vp <= U128_MAX ->
  max_unlocked_at vp t = Ok (if t <? vp_cliff_point vp then 0
    else if vp_frequency vp =? 0 then vp_cliff_unlock vp
    else vp_cliff_unlock vp
         + Z.min ((t - vp_cliff_point vp) / vp_frequency vp) (vp_periods vp) * vp_per_period vp).
Proof.
  intros A B C D U. unfold max_unlocked_at. destruct (t <? vp_cliff_point vp) eqn:E1; [reflexivity|].
  destruct (vp_frequency vp =? 0) eqn:E2; [reflexivity|].
  rewrite ssub_intro by lia. cbn [bind]. rewrite sdiv_intro by lia. cbn [bind].
  set (k := Z.min ((t - vp_cliff_point vp) / vp_frequency vp) (vp_periods vp)).
  assert (K : 0 <= k <= vp_periods vp).
  { unfold k. assert (0 <= (t - vp_cliff_point vp) / vp_frequency vp) by (apply Z.div_pos; lia). lia. }
  assert (k * vp_per_period vp <= vp_periods vp * vp_per_period vp) by (apply Z.mul_le_mono_nonneg_r; lia).
  rewrite smul_intro by lia. cbn [bind]. rewrite sadd_intro by lia. reflexivity.
Qed.

Theorem C45_liquidity_vesting : forall c v total now,
  created c -> vesting_of c v -> 0 < total <= U128_MAX ->
  0 <= now -> now + 63072000 <= U64_MAX ->
  exists vp, damm_v2_vesting_parameters v total now = Ok vp
  (* the schedule pays out exactly the vested liquidity *)
  /\ 0 <= vp_cliff_unlock vp /\ 0 <= vp_per_period vp /\ 0 <= vp_periods vp
  /\ vp_cliff_unlock vp + vp_per_period vp * vp_periods vp = total
  (* it passes the checks of the DAMM v2 program, within two years *)
  /\ validate_vesting_parameters vp now 63072000 = Ok tt
  (* nothing before the cliff, everything at the end, never less later *)
  /\ (forall t, t < vp_cliff_point vp -> max_unlocked_at vp t = Ok 0)
  /\ (forall t, vp_cliff_point vp + vp_frequency vp * vp_periods vp <= t -> max_unlocked_at vp t = Ok total)
  /\ (forall s t, s <= t -> exists us ut, max_unlocked_at vp s = Ok us /\ max_unlocked_at vp t = Ok ut
        /\ 0 <= us <= ut /\ ut <= total).
Proof.
  intros c v total now C V T N0 N. pose proof (created_vest c v C V) as W.
  destruct (params_exist v total now W ltac:(lia) N0 N) as (vp & VP). exists vp. split; [exact VP|].
  apply params_value in VP. cbv zeta in VP.
  pose proof (per_bounds v total W ltac:(lia)) as (P0 & P1 & P2 & P3).
  destruct W as (_ & P & B & NP & F & CF & BN & CM & CD).
  set (per := per_of v total) in *.
  assert (SH : (vp = mkVestingParams (now + Z.max (vi_cliff v) 1) 0 total 0 0)
    \/ (0 < per /\ 0 < vi_periods v /\ 0 < vi_frequency v /\ vi_cliff v + vi_frequency v * vi_periods v <= 63072000
        /\ vp = mkVestingParams (now + vi_cliff v) per (total - per * vi_periods v) (vi_frequency v) (vi_periods v))).
  { destruct VP as [(VP & _)|(_ & VP)]; [|left; exact VP].
    destruct (per =? 0) eqn:E; [left; exact VP|right].
    assert (0 < vi_periods v).
    { unfold per, per_of in *. destruct (0 <? vi_periods v) eqn:E2; lia. }
    assert (0 < vi_bps_per_period v * vi_periods v).
    { assert (vi_bps_per_period v <> 0).
      { intros Z0. specialize (P3 H). rewrite Z0 in P3. lia. }
      apply Z.mul_pos_pos; lia. }
    destruct (CD H0). repeat split; auto; lia. }
  clear VP.
  assert (G : 0 <= vp_cliff_unlock vp /\ 0 <= vp_per_period vp /\ 0 <= vp_periods vp /\ 0 <= vp_frequency vp
     /\ vp_cliff_unlock vp + vp_per_period vp * vp_periods vp = total
     /\ (vp_frequency vp = 0 -> vp_cliff_unlock vp = total)
     /\ 0 <= vp_frequency vp * vp_periods vp).
  { destruct SH as [->|(H1 & H2 & H3 & H4 & ->)]; simpl; [repeat split; lia|].
    assert (0 <= vi_frequency v * vi_periods v) by (apply Z.mul_nonneg_nonneg; lia). repeat split; lia. }
  destruct G as (G1 & G2 & G3 & G4 & G5 & G6 & G7). split; [exact G1|]. split; [exact G2|]. split; [exact G3|]. split; [exact G5|].
  split.
  { unfold validate_vesting_parameters, vesting_total_lock.
    destruct SH as [->|(H1 & H2 & H3 & H4 & ->)]; cbn [vp_cliff_point vp_periods vp_frequency vp_per_period vp_cliff_unlock].
    - rewrite require_true by lia. cbn [bind]. replace (now + Z.max (vi_cliff v) 1 =? now) with false by lia. cbn [bind].
      replace (0 <? 0) with false by reflexivity. cbn [bind]. rewrite ssub_intro by lia. cbn [bind].
      rewrite smul_intro by (unfold U64_MAX; lia). cbn [bind]. rewrite sadd_intro by (unfold U64_MAX; lia). cbn [bind].
      rewrite require_true by lia. cbn [bind]. rewrite smul_intro by (unfold U128_MAX; lia). cbn [bind].
      rewrite sadd_intro by lia. cbn [bind]. apply require_true. lia.
    - assert (0 <= vi_frequency v * vi_periods v) by (apply Z.mul_nonneg_nonneg; lia).
      assert (0 <= per * vi_periods v) by (apply Z.mul_nonneg_nonneg; lia).
      rewrite require_true by lia. cbn [bind].
      assert (X : (if now + vi_cliff v =? now then require (0 <? vi_periods v) EInvalidVestingParameters else Ok tt) = Ok tt).
      { destruct (now + vi_cliff v =? now); [apply require_true; lia|reflexivity]. }
      rewrite X. cbn [bind]. replace (0 <? vi_periods v) with true by lia. rewrite require_true by lia. cbn [bind].
      rewrite ssub_intro by lia. cbn [bind]. rewrite smul_intro by (unfold U64_MAX; lia). cbn [bind].
      rewrite sadd_intro by (unfold U64_MAX; lia). cbn [bind]. rewrite require_true by lia. cbn [bind].
      rewrite smul_intro by lia. cbn [bind]. rewrite sadd_intro by lia. cbn [bind]. apply require_true. lia. }
  assert (UV : forall t, max_unlocked_at vp t = Ok (if t <? vp_cliff_point vp then 0
    else if vp_frequency vp =? 0 then vp_cliff_unlock vp
    else vp_cliff_unlock vp
         + Z.min ((t - vp_cliff_point vp) / vp_frequency vp) (vp_periods vp) * vp_per_period vp)).
  { intros t. apply unlocked_value; auto; lia. }
  split; [intros t Ht; rewrite UV; replace (t <? vp_cliff_point vp) with true by lia; reflexivity|].
  split.
  { intros t Ht. rewrite UV. replace (t <? vp_cliff_point vp) with false by lia.
    destruct (vp_frequency vp =? 0) eqn:E; [f_equal; apply G6; lia|].
    f_equal. rewrite Z.min_r; [lia|]. apply Z.div_le_lower_bound; lia. }
  intros s t ST. do 2 eexists. split; [apply UV|]. split; [apply UV|].
  destruct (vp_frequency vp =? 0) eqn:E.
  { destruct (s <? vp_cliff_point vp) eqn:E1, (t <? vp_cliff_point vp) eqn:E2; lia. }
  assert (KT : forall x, vp_cliff_point vp <= x ->
     0 <= Z.min ((x - vp_cliff_point vp) / vp_frequency vp) (vp_periods vp) * vp_per_period vp
     <= vp_per_period vp * vp_periods vp).
  { intros x X. assert (0 <= (x - vp_cliff_point vp) / vp_frequency vp) by (apply Z.div_pos; lia).
    split; [apply Z.mul_nonneg_nonneg; lia|]. rewrite (Z.mul_comm (vp_per_period vp)). apply Z.mul_le_mono_nonneg_r; lia. }
  destruct (s <? vp_cliff_point vp) eqn:E1, (t <? vp_cliff_point vp) eqn:E2; try lia.
  - pose proof (KT t ltac:(lia)). lia.
  - pose proof (KT s ltac:(lia)). pose proof (KT t ltac:(lia)).
    assert ((s - vp_cliff_point vp) / vp_frequency vp <= (t - vp_cliff_point vp) / vp_frequency vp) by (apply Z.div_le_mono; lia).
    assert (Z.min ((s - vp_cliff_point vp) / vp_frequency vp) (vp_periods vp) * vp_per_period vp
         <= Z.min ((t - vp_cliff_point vp) / vp_frequency vp) (vp_periods vp) * vp_per_period vp).
    { apply Z.mul_le_mono_nonneg_r; lia. }
    lia.
Qed.

(** The vesting stage is entered only by pools whose config has a locked vesting. *)
Lemma stage_vesting w : reachable w -> p_progress (w_pool w) = 1 -> ~ no_vesting (w_config w).
Proof.
  intros (w0 & ops & I0 & ->).
  assert (B : p_progress (w_pool w0) = 1 -> ~ no_vesting (w_config w0)).
  { destruct I0 as (c & key & cr & pa & tt & sl & ti & ad & os & C & _ & _ & H).
    unfold initialize_pool in H. minv. simpl. discriminate. }
  assert (R0 : reachable w0) by (exists w0, []; auto). clear I0.
  revert w0 B R0. induction ops as [|o ops IH]; intros w0 B R0; [exact B|].
  change (run w0 (o :: ops)) with (run (step w0 o) ops).
  apply IH; [|apply (reachable_run w0 [o]); auto].
  destruct (exec w0 o) as [w'|e] eqn:E; [rewrite (step_ok _ _ _ E)|rewrite (step_err _ _ _ E); auto].
  pose proof (reachable_inv _ R0) as I. destruct (exec_frame _ _ _ I E) as (FR & _).
  rewrite (fr_config _ _ FR). pose proof (C24_legal_edges _ _ _ R0 E) as L. cbv zeta in L.
  intros P. destruct L as [L|[L|[L|L]]].
  - apply B. congruence.
  - destruct L as (_ & _ & _ & _ & [(_ & L)|(L & _)]); [lia|exact L].
  - lia.
  - lia.
Qed.

(** Locked base tokens: the escrow receives exactly what its schedule pays out. *)
Theorem C45_token_vesting : forall w w', reachable w -> exec w OCreateLocker = Ok w' ->
  let v := c_vesting (w_config w) in
  let total := lv_cliff_unlock_amount v + lv_amount_per_period v * lv_number_of_period v in
  0 < total
  /\ w_log w' = w_log w ++ [mkTransfer TBase PPool PEscrow total]
  /\ w_bvault w' = w_bvault w - total /\ w_qvault w' = w_qvault w /\ w_lamports w' = w_lamports w
  /\ exists e, w_escrow w' = Some (p_creator (w_pool w), total, e)
     /\ es_cliff_unlock e + es_per_period e * es_periods e = total
     /\ es_cliff_unlock e = lv_cliff_unlock_amount v
     /\ es_per_period e = lv_amount_per_period v
     /\ es_start e = p_finish (w_pool w)
     /\ es_cliff_time e = Z.min U64_MAX (p_finish (w_pool w) + lv_cliff_duration v)
     /\ es_frequency e = lv_frequency v
     (* 2: only the recipient may redirect it; 1: only its creator, the pool authority, may cancel *)
     /\ es_update_recipient_mode e = 2 /\ es_cancel_mode e = 1.
Proof.
  intros w w' R H v total. pose proof (reachable_inv _ R) as I. pose proof (created_cfg_ok _ (iv_created _ I)) as K.
  pose proof (stage_vesting _ R) as SV.
  unfold exec in H. apply bind_ok in H. destruct H as (u & _ & H). unfold create_locker in H.
  apply bind_ok in H. destruct H as (u1 & PR & H). apply require_ok in PR.
  apply bind_ok in H. destruct H as (t & TT & H). apply bind_ok in H. destruct H as (w1 & PB & H).
  apply Ok_inj in H. destruct (ok_vest _ K) as (t' & T1 & T2 & T3). rewrite TT in T1. apply Ok_inj in T1. subst t'.
  assert (TV : t = total).
  { unfold lv_total in TT. apply bind_ok in TT. destruct TT as (m & M & TT). apply smul_ok in M. destruct M as (-> & _).
    apply sadd_ok in TT. destruct TT as (-> & _). reflexivity. }
  rewrite TV in *. clear TV t TT.
  assert (P : 0 < total).
  { apply T3. unfold PostBondingCurve in PR. specialize (SV ltac:(lia)). unfold no_vesting in SV.
    rewrite <- has_vesting_iff in SV. destruct (has_vesting _); [reflexivity|contradiction SV; reflexivity]. }
  unfold pay_base in PB. apply bind_ok in PB. destruct PB as (vb & _ & PB).
  apply Ok_inj in PB. subst w1 w'. split; [exact P|]. split; [reflexivity|]. split; [reflexivity|].
  split; [reflexivity|]. split; [reflexivity|].
  eexists. split; [reflexivity|]. simpl. repeat split; auto.
Qed.

(** ** C28 *)

(** The share the program computes for one schedule, against the amount really locked. *)
Lemma vest_share v liq now b vp u :
  vest_wf v -> 0 <= liq <= U128_MAX ->
  let vested := liq * vi_percentage v / 100 in
  liquidity_locked_bps_at v 86400 = Ok b ->
  damm_v2_vesting_parameters v vested now = Ok vp ->
  max_unlocked_at vp (now + 86400) = Ok u ->
  u <= vested /\ b * liq <= 10000 * (vested - u) + 700000000.
Proof.
  intros W L vested HB HP HU.
  assert (VL : 100 * vested <= liq * vi_percentage v < 100 * vested + 100).
  { unfold vested. pose proof (Z.div_mod (liq * vi_percentage v) 100 ltac:(lia)).
    pose proof (Z.mod_pos_bound (liq * vi_percentage v) 100 ltac:(lia)). lia. }
  clearbody vested.
  assert (W' := W). destruct W' as (SHP & P & B & NP & F & CF & BN & CM & CD).
  assert (V0 : 0 <= vested).
  { assert (0 <= liq * vi_percentage v) by (apply Z.mul_nonneg_nonneg; lia). lia. }
  assert (VM : vested <= U128_MAX).
  { assert (liq * vi_percentage v <= liq * 100) by (apply Z.mul_le_mono_nonneg_l; lia). lia. }
  (* what the schedule releases after n seconds *)
  assert (REL : forall tot t0 q r, 0 <= tot <= U128_MAX -> damm_v2_vesting_parameters v tot t0 = Ok q ->
     max_unlocked_at q (t0 + 86400) = Ok r ->
     exists k, 0 <= k <= vi_periods v /\
     ((vi_cliff v <= 86400 -> tot - r = per_of v tot * (vi_periods v - k) /\ (0 < vi_frequency v -> k = Z.min ((86400 - vi_cliff v) / vi_frequency v) (vi_periods v))) /\ (86400 < vi_cliff v -> r = 0))).
  { intros tot t0 q r TT HQ HR. apply params_value in HQ. cbv zeta in HQ.
    pose proof (per_bounds v tot W TT) as (P0 & P1 & P2 & P3). set (per := per_of v tot) in *.
    assert (PS : 0 < per -> 0 < vi_periods v /\ 0 < vi_frequency v).
    { intros PP. assert (0 < vi_periods v).
      { unfold per, per_of in PP. destruct (0 <? vi_periods v) eqn:E2; lia. }
      assert (vi_bps_per_period v <> 0).
      { intros Z0. specialize (P3 H). rewrite Z0 in P3. lia. }
      split; [lia|]. apply CD. apply Z.mul_pos_pos; lia. }
    assert (C : (per = 0 /\ q = mkVestingParams (t0 + Z.max (vi_cliff v) 1) 0 tot 0 0)
       \/ (0 < per /\ q = mkVestingParams (t0 + vi_cliff v) per (tot - per * vi_periods v) (vi_frequency v) (vi_periods v))).
    { destruct HQ as [(-> & _)|(X & ->)]; [|left; auto].
      destruct (per =? 0) eqn:E; [left|right]; split; auto; lia. }
    clear HQ. clearbody per.
    assert (KB : 0 < vi_frequency v -> vi_cliff v <= 86400 ->
       0 <= Z.min ((86400 - vi_cliff v) / vi_frequency v) (vi_periods v) <= vi_periods v).
    { intros FP CL. assert (0 <= (86400 - vi_cliff v) / vi_frequency v) by (apply Z.div_pos; lia). lia. }
    destruct C as [(PZ & ->)|(PP & ->)].
    - rewrite unlocked_value in HR by (simpl; lia).
      cbn [vp_cliff_point vp_frequency vp_periods vp_per_period vp_cliff_unlock] in HR. apply Ok_inj in HR.
      replace (0 =? 0) with true in HR by reflexivity.
      exists (if (0 <? vi_frequency v) && (vi_cliff v <=? 86400)
              then Z.min ((86400 - vi_cliff v) / vi_frequency v) (vi_periods v) else 0).
      split; [destruct ((0 <? vi_frequency v) && (vi_cliff v <=? 86400)) eqn:E; [apply KB; lia|lia]|].
      split.
      + intros CL. replace (t0 + 86400 <? t0 + Z.max (vi_cliff v) 1) with false in HR by lia. subst r. rewrite PZ.
        split; [lia|]. intros FP. replace ((0 <? vi_frequency v) && (vi_cliff v <=? 86400)) with true by lia. reflexivity.
      + intros CL. replace (t0 + 86400 <? t0 + Z.max (vi_cliff v) 1) with true in HR by lia. auto.
    - destruct (PS PP) as (N1 & N2).
      rewrite unlocked_value in HR by (cbn [vp_cliff_point vp_frequency vp_periods vp_per_period vp_cliff_unlock]; lia).
      cbn [vp_cliff_point vp_frequency vp_periods vp_per_period vp_cliff_unlock] in HR. apply Ok_inj in HR.
      replace (vi_frequency v =? 0) with false in HR by lia.
      replace (t0 + 86400 - (t0 + vi_cliff v)) with (86400 - vi_cliff v) in HR by ring.
      destruct (t0 + 86400 <? t0 + vi_cliff v) eqn:E.
      + exists 0. split; [lia|]. split; intros; lia.
      + exists (Z.min ((86400 - vi_cliff v) / vi_frequency v) (vi_periods v)). split; [apply KB; lia|].
        split; [|lia]. intros _. split; [|auto]. subst r. ring. }
  destruct (REL vested now vp u (conj V0 VM) HP HU) as (k & K & KA & KN).
  pose proof (per_bounds v vested W (conj V0 VM)) as (A0 & A1 & A2 & A3).
  assert (ULE : u <= vested).
  { destruct (Z.le_gt_cases (vi_cliff v) 86400) as [CL|CL]; [|rewrite (KN CL); lia].
    destruct (KA CL) as (X & _). assert (0 <= per_of v vested * (vi_periods v - k)) by (apply Z.mul_nonneg_nonneg; lia). lia. }
  split; [exact ULE|].
  unfold liquidity_locked_bps_at in HB. destruct (vi_initialized v =? 0) eqn:IZ.
  { apply Ok_inj in HB. subst b. lia. }
  apply bind_ok in HB. destruct HB as (tot & TO & HB). apply mul_div_cast128_down in TO. destruct TO as (TE & _ & TM).
  apply bind_ok in HB. destruct HB as (vp' & VP' & HB).
  apply bind_ok in HB. destruct HB as (u' & U' & HB).
  apply bind_ok in HB. destruct HB as (lk & LK & HB). apply ssub_ok in LK. destruct LK as (-> & LK).
  apply bind_ok in HB. destruct HB as (bb & BB & HB). apply mul_div_cast128_down in BB. destruct BB as (BE & _ & _).
  apply scast_ok in HB. destruct HB as (-> & _).
  assert (TU : 100 * tot <= U128_MAX * vi_percentage v).
  { rewrite TE. apply Z.mul_div_le. lia. }
  assert (T0 : 0 <= tot) by (rewrite TE; apply Z.div_pos; [apply Z.mul_nonneg_nonneg; unfold U128_MAX; lia|lia]).
  clear TE.
  assert (BU : bb * U128_MAX <= (tot - u') * 10000).
  { rewrite BE. unfold MAX_BASIS_POINT. rewrite Z.mul_comm. apply Z.mul_div_le. unfold U128_MAX. lia. }
  assert (B0 : 0 <= bb) by (rewrite BE; apply Z.div_pos; [apply Z.mul_nonneg_nonneg; unfold MAX_BASIS_POINT; lia|unfold U128_MAX; lia]).
  clear BE. change 86400 with (0 + 86400) in U'.
  destruct (REL tot 0 vp' u' (conj T0 TM) VP' U') as (k' & K' & KA' & KN').
  pose proof (per_bounds v tot W (conj T0 TM)) as (D0 & D1 & D2 & D3).
  assert (MP : 0 < U128_MAX) by (unfold U128_MAX; lia).
  destruct (Z.le_gt_cases (vi_cliff v) 86400) as [CL|CL].
  2:{ (* before the cliff: all of it *)
    rewrite (KN CL). rewrite (KN' CL) in BU.
    assert (BP : bb <= 100 * vi_percentage v).
    { assert (bb * U128_MAX <= (100 * vi_percentage v) * U128_MAX) by lia. apply Z.mul_le_mono_pos_r in H; auto. }
    assert (bb * liq <= 100 * vi_percentage v * liq) by (apply Z.mul_le_mono_nonneg_r; lia). lia. }
  destruct (KA CL) as (E1 & F1). destruct (KA' CL) as (E2 & F2). rewrite E1. rewrite E2 in BU. clear E1 E2 KA KA' KN KN'.
  set (n := vi_periods v) in *. set (bp := vi_bps_per_period v) in *. set (pc := vi_percentage v) in *.
  set (pr := per_of v vested) in *. set (pr' := per_of v tot) in *.
  destruct (Z.eq_dec (bp * n) 0) as [Z0|NZ].
  { (* no periods: nothing is locked after the cliff *)
    assert (X : pr' = 0 \/ n = 0).
    { destruct (Z.eq_dec n 0) as [|NN]; [auto|left]. assert (bp = 0) by (destruct (Z.mul_eq_0 bp n) as (Q & _); destruct (Q Z0); lia).
      specialize (D3 ltac:(lia)). rewrite H in D3. lia. }
    assert (Y : pr' * (n - k') = 0) by (destruct X as [-> | X]; [ring|replace (n - k') with 0 by lia; ring]).
    rewrite Y in BU. assert (bb <= 0).
    { destruct (Z.le_gt_cases bb 0); [auto|]. assert (0 < bb * U128_MAX) by (apply Z.mul_pos_pos; lia). lia. }
    assert (bb = 0) as -> by lia. assert (0 <= pr * (n - k)) by (apply Z.mul_nonneg_nonneg; lia). lia. }
  assert (NN : 0 <= bp * n) by (apply Z.mul_nonneg_nonneg; lia).
  assert (N1 : 0 < n).
  { destruct (Z.eq_dec n 0) as [E|]; [|lia]. rewrite E in NZ. lia. }
  destruct (CD ltac:(lia)) as (FP & _). specialize (F1 FP). specialize (F2 FP).
  assert (KK : k' = k) by congruence. rewrite KK in *. clear F1 F2 KK K'.
  specialize (A3 N1). specialize (D3 N1). set (m := n - k) in *. assert (M : 0 <= m <= n) by lia. clearbody m.
  clear A1 D1 REL HP HU VP' U'. clearbody pr pr'.
  (* the program's share *)
  assert (S1 : 100 * bb <= pc * bp * m).
  { assert (X1 : 10000 * pr' * m <= tot * bp * m) by (apply Z.mul_le_mono_nonneg_r; lia).
    assert (X2 : 100 * tot * (bp * m) <= U128_MAX * pc * (bp * m)).
    { apply Z.mul_le_mono_nonneg_r; [apply Z.mul_nonneg_nonneg; lia|lia]. }
    assert (X3 : 100 * bb * U128_MAX <= pc * bp * m * U128_MAX) by lia.
    apply Z.mul_le_mono_pos_r in X3; auto. }
  assert (S2 : 100 * bb * liq <= pc * bp * m * liq) by (apply Z.mul_le_mono_nonneg_r; lia).
  assert (BM : 0 <= bp * m <= 10000).
  { split; [apply Z.mul_nonneg_nonneg; lia|]. assert (bp * m <= bp * n) by (apply Z.mul_le_mono_nonneg_l; lia). lia. }
  assert (S3 : liq * pc * (bp * m) <= (100 * vested + 100) * (bp * m)) by (apply Z.mul_le_mono_nonneg_r; lia).
  assert (S4 : (vested * bp - 9999) * m <= 10000 * pr * m) by (apply Z.mul_le_mono_nonneg_r; lia).
  lia.
Qed.

Theorem C28_config_share : forall c, created c ->
  exists bps, total_locked_bps_at c 86400 = Ok bps /\ 1000 <= bps.
Proof.
  intros c C. apply created_inv in C.
  destruct C as (q & sup & spl & now & mig & sb & ba & fl & pre & post & qm & fc & lr & qa & bps & T & _ & B).
  exists bps. split; [exact (cb_bps _ _ _ _ _ _ _ _ _ _ _ _ _ _ _ _ B)|].
  exact (cb_bps_min _ _ _ _ _ _ _ _ _ _ _ _ _ _ _ _ B).
Qed.

(** One day after migrating liquidity [liq] at time [now], the parts that are still locked -
    permanently, or by the schedules handed to DAMM v2 - are at least a tenth of [liq], up to
    200000 units of rounding (of liquidity, which is in Q64.64 units). *)
Theorem C28_tenth_locked : forall c liq now partner creator vp vc up uc,
  created c -> 0 <= liq <= U128_MAX -> 0 <= now -> now + 63072000 <= U64_MAX ->
  get_liquidity_distribution c liq = Ok (partner, creator) ->
  damm_v2_vesting_parameters (li_vesting partner) (li_vested partner) now = Ok vp ->
  damm_v2_vesting_parameters (li_vesting creator) (li_vested creator) now = Ok vc ->
  max_unlocked_at vp (now + 86400) = Ok up ->
  max_unlocked_at vc (now + 86400) = Ok uc ->
  liq <= 10 * (li_perm partner + (li_vested partner - up) + li_perm creator + (li_vested creator - uc) + 200000).
Proof.
  intros c liq now partner creator vp vc up uc C L N0 N D VP VC UP UC.
  destruct (C28_config_share c C) as (bps & TB & MB).
  destruct (C26_distribution_complete c liq C L) as (pa & cr & D' & _ & PP & PV & CP & CV & _).
  rewrite D in D'. apply Ok_inj in D'. injection D' as <- <-.
  assert (VS : li_vesting partner = c_partner_vesting c /\ li_vesting creator = c_creator_vesting c).
  { clear - D. unfold get_liquidity_distribution in D. minv. injection D as <- <-. split; reflexivity. }
  destruct VS as (V1 & V2). rewrite V1, PV in VP. rewrite V2, CV in VC.
  unfold total_locked_bps_at in TB.
  apply bind_ok in TB. destruct TB as (b1 & B1 & TB). apply bind_ok in TB. destruct TB as (b2 & B2 & TB).
  apply bind_ok in TB. destruct TB as (b3 & B3 & TB). apply bind_ok in TB. destruct TB as (b4 & B4 & TB).
  apply bind_ok in TB. destruct TB as (x & X & TB). apply bind_ok in TB. destruct TB as (y & Y & TB).
  apply smul_ok in B3, B4. apply sadd_ok in X, Y, TB.
  destruct B3 as (-> & _), B4 as (-> & _), X as (-> & _), Y as (-> & _), TB as (-> & _).
  assert (W1 : vest_wf (c_partner_vesting c)) by (apply (created_vest c); [exact C|left; auto]).
  assert (W2 : vest_wf (c_creator_vesting c)) by (apply (created_vest c); [exact C|right; auto]).
  destruct (vest_share _ liq now b1 vp up W1 L B1 VP UP) as (_ & S1).
  destruct (vest_share _ liq now b2 vc uc W2 L B2 VC UC) as (_ & S2).
  rewrite <- PV in S1. rewrite <- CV in S2.
  assert (Q : forall z r, r = liq * z / 100 -> 100 * z * liq <= 10000 * r + 10000).
  { intros z r ->. pose proof (Z.div_mod (liq * z) 100 ltac:(lia)). pose proof (Z.mod_pos_bound (liq * z) 100 ltac:(lia)). lia. }
  pose proof (Q _ _ PP) as Q1. pose proof (Q _ _ CP) as Q2.
  assert (Z1 : 1000 * liq <= (b1 + c_partner_perm_pct c * 100 + b2 + c_creator_perm_pct c * 100) * liq).
  { apply Z.mul_le_mono_nonneg_r; lia. }
  lia.
Qed.

(** ** Cases *)
Example C28_case : created cfgA /\ total_locked_bps_at cfgA 86400 = Ok 4499
  /\ exists p c vp vc, get_liquidity_distribution cfgA (10 ^ 30) = Ok (p, c)
  /\ damm_v2_vesting_parameters (li_vesting p) (li_vested p) 1700000000 = Ok vp
  /\ damm_v2_vesting_parameters (li_vesting c) (li_vested c) 1700000000 = Ok vc
  /\ max_unlocked_at vp (1700000000 + 86400) = Ok (10 ^ 29)
  /\ max_unlocked_at vc (1700000000 + 86400) = Ok (10 ^ 29).
Proof.
  split; [exact createdA|]. split; [vm_compute; reflexivity|].
  do 4 eexists. split; [vm_compute; reflexivity|]. split; [vm_compute; reflexivity|].
  split; [vm_compute; reflexivity|]. split; vm_compute; reflexivity.
Qed.

Example C45_case : created cfgA /\ vesting_of cfgA (mkLiqVesting 1 20 500 10 86400 3600)
  /\ damm_v2_vesting_parameters (mkLiqVesting 1 20 500 10 86400 3600) 1000003 1700000000
     = Ok (mkVestingParams 1700003600 50000 500003 86400 10)
  /\ w_escrow (run wA (histA1 ++ histA2 ++ firstn 4 histA3))
     = Some (44, 15000000, mkEscrow 1700000900 1700004500 86400 5000000 1000000 10 2 1)
  /\ is_ok (exec (run wA (histA1 ++ histA2 ++ firstn 3 histA3)) OCreateLocker) = true.
Proof. split; [exact createdA|]. split; [left; reflexivity|]. vm_compute. auto. Qed.

Print Assumptions C28_config_share.
Print Assumptions C28_tenth_locked.
Print Assumptions C45_liquidity_vesting.
Print Assumptions C45_token_vesting.
