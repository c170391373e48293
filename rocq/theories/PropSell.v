(** * C47: everything bought from the curve can be sold back. *)
From Coq Require Import ZArith QArith List Bool Lia ZifyBool Lqa.
From Verif Require Import Base MathModel CurveModel FeeModel ConfigModel PoolModel TxModel
  SystemModel Fixtures Spec Lib CurveProofs CurveLoops Potential CalcProofs ConfigProofs FeeProofs
  SwapProofs InvProofs InvOps InvReach FixturesReach Effects Frame Bounds PropSafe PropVol Live.
Import ListNotations.
Open Scope Z_scope.
#[local] Arguments Z.pow : simpl never.
#[local] Arguments Z.testbit : simpl never.

Lemma current_point_of c slot now : cfg_ok c -> current_point c slot now = Ok (point_of c slot now).
Proof.
  intros K. unfold current_point, point_of.
  destruct (ok_act _ K) as [E|E]; rewrite E; reflexivity.
Qed.

Lemma fee_mode_exists c d ref : cfg_ok c -> exists fm, get_fee_mode (c_collect_fee_mode c) d ref = Ok fm.
Proof.
  intros K. unfold get_fee_mode, collect_of.
  destruct (ok_collect _ K) as [E|E]; rewrite E; cbn [bind]; simpl; eauto.
Qed.

Lemma u64b_intro x : 0 <= x <= U64_MAX -> u64b x = true.
Proof. unfold u64b. lia. Qed.

(** An exact-input (mode 0) or partial-fill (mode 1) sale of [amount0] base tokens. *)
Definition sale (a : swap_args) : Prop :=
  sa_dir a = BaseToQuote /\ (sa_mode a = 0 \/ sa_mode a = 1) /\ sa_amount1 a = 0.

(** Clock values as the chain provides them: 64-bit, after the pool's activation, and later than
    18:12 on 1 January 1970. *)
Definition clock_ok (w : world) (a : swap_args) : Prop :=
  0 <= sa_slot a <= U64_MAX /\ 65535 <= sa_now a <= U64_MAX
  /\ p_activation (w_pool w) <= point_of (w_config w) (sa_slot a) (sa_now a).

(** While the curve is not complete, a sale of at most the base tokens that have left the
    reserve always executes, and takes exactly the amount offered. It needs room in three 64-bit counters: the token vault
    and the two cumulative quote-fee metrics. *)
Theorem C47_sell_back : forall w a supply,
  reachable w -> p_quote (w_pool w) < c_threshold (w_config w) ->
  get_initial_base_supply (w_config w) = Ok supply ->
  sale a -> clock_ok w a -> 0 < sa_amount0 a <= supply - p_base (w_pool w) ->
  w_bvault w + sa_amount0 a <= U64_MAX ->
  p_m_protocol_quote (w_pool w) + p_quote (w_pool w) <= U64_MAX ->
  p_m_trading_quote (w_pool w) + p_quote (w_pool w) <= U64_MAX ->
  exists w', exec w (OSwap a) = Ok w'
    /\ p_base (w_pool w') = p_base (w_pool w) + sa_amount0 a.
Proof.
  intros w a s R OP S (D & MO & A1) (CL1 & CL2 & CL3) A0 RB M1 M2.
  pose proof (reachable_inv _ R) as I. pose proof (iv_created _ I) as C.
  pose proof (created_cfg_ok _ C) as K. pose proof (created_fees_ok _ C) as FK.
  pose proof (reachable_bounded _ R) as BD. pose proof (bd_base _ BD) as B1.
  pose proof (iv_base _ I) as IB. unfold base_owed in IB.
  assert (P0 : p_progress (w_pool w) = 0) by (apply (iv_complete _ I); lia).
  rewrite P0 in IB. simpl in IB.
  pose proof (iv_nonneg _ I) as (N1 & N2 & N3 & N4 & N5 & N6 & N7 & N8 & N9 & N10).
  assert (AU : sa_amount0 a <= U64_MAX) by lia.
  destruct (iv_supply _ I) as (s' & S1 & S2). rewrite S in S1. apply Ok_inj in S1. subst s'.
  assert (BA : (inject_Z (sa_amount0 a) <= base_area (c_start (w_config w)) (curve_points (w_config w)) (p_price (w_pool w)))%Q).
  { eapply Qle_trans; [|exact S2]. rewrite <- Zle_Qle. lia. }
  pose proof (bd_pquote _ BD) as PQ. pose proof (iv_area _ I) as AR.
  destruct (calc_sell_exists (w_config w) (p_price (w_pool w)) (sa_amount0 a) K (iv_price _ I) ltac:(lia)
              ltac:(lia) BA) as (fi & CE & CL & CO).
  destruct (C33_dynamic_fee_bounded w (sa_now a) R) as (vt & _ & PT & _).
  set (el := first_swap_eligible (w_config w) (w_pool w) (w_key w) (is_some (sa_referral a)) (sa_view a)).
  destruct (num_included_exists w (sa_now a) vt _ (sa_amount0 a) BaseToQuote el R PT CL3
              (reachable_activation _ R) ltac:(lia)) as (num & NE & NB).
  destruct (fee_mode_exists (w_config w) BaseToQuote (is_some (sa_referral a)) K) as (fm & FM).
  pose proof (fee_mode_cases _ _ _ _ FM) as (FR & FB & FD). specialize (FD eq_refl). rewrite FD in FB.
  destruct (calc_sell_in_moves _ _ _ _ _ (ok_curve _ K) (iv_price _ I) (Z.lt_le_incl _ _ (proj1 A0)) CE) as (_ & _ & _ & FO).
  destruct (fee_on_amount_exists num (fi_out fi) (fm_referral fm) NB ltac:(lia)) as (g & GE).
  assert (PS : exists r, process_swap (w_config w) (set_tracker (w_pool w) vt) (sa_mode a) (sa_amount0 a)
     (sa_amount1 a) fm (sa_dir a) (point_of (w_config w) (sa_slot a) (sa_now a)) el = Ok r
     /\ sr_included r = sa_amount0 a /\ sr_excluded r = sa_amount0 a).
  { pose proof (fee_on_amount_ok _ _ _ _ GE) as (fee & _ & FL & FA & _).
    unfold process_swap. rewrite D, A1.
    destruct MO as [MO|MO]; rewrite MO; [change (0 =? 0) with true|change (1 =? 0) with false; change (1 =? 1) with true];
      cbv iota; [unfold swap_exact_in|unfold swap_partial]; rewrite NE; cbn [bind]; rewrite FD; cbn [bind foa_amount];
      unfold fi_of_direction; change (p_price (set_tracker (w_pool w) vt)) with (p_price (w_pool w)); rewrite CE; cbn [bind];
      rewrite CL.
    - change (0 =? 0) with true. rewrite require_true by reflexivity. cbn [bind]. rewrite GE. cbn [bind].
      rewrite require_true by (simpl; lia). cbn [bind]. eexists. split; [reflexivity|]. simpl. lia.
    - change (negb (0 =? 0)) with false. cbv iota. cbn [bind]. rewrite GE. cbn [bind].
      rewrite require_true by (simpl; lia). cbn [bind]. eexists. split; [reflexivity|]. simpl. lia. }
  destruct PS as (r & PS & SI & SX).
  pose proof PS as PS'. apply process_swap_facts in PS'; auto; [|exact (iv_price _ I)|lia].
  destruct PS' as (num' & fee & gross & SF & _). rewrite D in SF. change (p_price (set_tracker (w_pool w) vt)) with (p_price (w_pool w)) in SF.
  pose proof (gross_in_reserve _ _ _ _ _ _ _ I SF) as GR. cbv iota in GR.
  pose proof (sf_parts _ _ _ _ _ _ _ _ SF) as PARTS.
  apply parts_sum in PARTS; [|apply (sf_fee_nonneg _ _ _ _ _ _ _ _ SF)]. destruct PARTS as (PS1 & PS2 & PS3 & PS4 & _).
  pose proof (sf_fee_le _ _ _ _ _ _ _ _ SF) as FL. rewrite FD in FL.
  destruct (swap_finishes w a (point_of (w_config w) (sa_slot a) (sa_now a)) fm vt r) as (w' & E); auto; try lia.
  - cbn [args_ok]. rewrite !u64b_intro by lia. reflexivity.
  - apply current_point_of; auto.
  - unfold rate_limit_check. rewrite D. destruct (bf_mode _ =? 2); [|reflexivity].
    unfold rl_applied. destruct (rl_is_zero _); reflexivity.
  - rewrite D. exact FM.
  - rewrite D, SI. exact RB.
  - exists w'. split; [exact E|]. unfold exec in E. apply bind_ok in E. destruct E as (u & _ & E).
    unfold do_swap in E. apply bind_ok in E. destruct E as ([w2 r2] & E & E2). apply Ok_inj in E2. simpl in E2. subst w2.
    pose proof E as E'.
    apply swap_full_effect in E; auto; [|apply (iv_price _ I)|lia].
    destruct E as (fm' & n' & fee' & gr' & pf & cf & cu & p1 & SE & PRE & PSX).
    assert (p1 = set_tracker (w_pool w) vt).
    { unfold update_pre_swap in PRE. unfold pre_tracker in PT. cbv zeta in PT.
      destruct (dyn_enabled _); [rewrite PT in PRE; apply Ok_inj in PRE; auto|].
      apply Ok_inj in PRE. subst p1 vt. destruct (w_pool w); reflexivity. }
    subst p1. pose proof (se_fm _ _ _ _ _ _ _ _ _ _ _ SE) as FM'. rewrite D, FM in FM'. apply Ok_inj in FM'. subst fm'.
    pose proof (se_point _ _ _ _ _ _ _ _ _ _ _ SE) as CU. rewrite current_point_of in CU by auto. apply Ok_inj in CU. subst cu.
    fold el in PSX. rewrite PS in PSX. apply Ok_inj in PSX. subst r2.
    destruct (se_pool _ _ _ _ _ _ _ _ _ _ _ SE) as (p2 & AP & _ & _ & CASE).
    pose proof (ap_base _ _ _ _ _ _ _ _ _ AP) as PB. rewrite D in PB. cbn [fi_db] in PB. rewrite SX in PB.
    destruct CASE as [(_ & ->)|(_ & _ & ->)]; exact PB.
Qed.

(** All tokens bought in history A1 can be sold back in one sale. *)
Example C47_case :
  let w := run wA histA1 in
  reachable w /\ p_quote (w_pool w) < c_threshold cfgA
  /\ exists s, get_initial_base_supply (w_config w) = Ok s
     /\ 0 < s - p_base (w_pool w)
     /\ (let a := mkSwapArgs 500 None BaseToQuote 0 (s - p_base (w_pool w)) 0 1000 1700000100 plain_view in
         sale a /\ clock_ok w a /\ w_bvault w + sa_amount0 a <= U64_MAX
         /\ p_m_protocol_quote (w_pool w) + p_quote (w_pool w) <= U64_MAX
         /\ p_m_trading_quote (w_pool w) + p_quote (w_pool w) <= U64_MAX).
Proof.
  cbv zeta. split; [apply reachA|]. split; [vm_compute; reflexivity|].
  eexists. split; [vm_compute; reflexivity|]. unfold sale, clock_ok.
  vm_compute. repeat split; try discriminate; auto.
Qed.

Print Assumptions C47_sell_back.
