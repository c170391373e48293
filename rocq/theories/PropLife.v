(** * Properties of whole histories of the curve: C09, C12 - C15, C24. *)
From Coq Require Import ZArith QArith List Bool Lia ZifyBool Lqa.
From Verif Require Import Base MathModel CurveModel FeeModel ConfigModel PoolModel TxModel
  SystemModel Spec Lib CurveProofs CurveLoops Potential CalcProofs ConfigProofs FeeProofs
  SwapProofs InvProofs InvOps InvReach Effects Frame PropSwap Fixtures FixturesReach.
Import ListNotations.
Open Scope Z_scope.
#[local] Arguments Z.pow : simpl never.
#[local] Arguments Z.testbit : simpl never.

(** ** C09: the price stays inside the curve *)
Theorem C09_price_in_curve : forall w, reachable w ->
  c_start (w_config w) <= p_price (w_pool w) <= c_mig_price (w_config w)
  /\ c_start (w_config w) < c_mig_price (w_config w)
  /\ c_mig_price (w_config w) <= top_price (c_start (w_config w)) (curve_points (w_config w)).
Proof.
  intros w R. apply reachable_inv in R. pose proof (created_cfg_ok _ (iv_created _ R)) as K.
  split; [apply R|]. split; [apply (co_mig_lo _ _ (ok_curve _ K))|apply (co_mig_hi _ _ (ok_curve _ K))].
Qed.

(** Both ends are reached: the initial pool is at the start price, the completed one at the
    migration price. *)
Example C09_case :
  p_price (w_pool wA) = c_start cfgA
  /\ p_price (w_pool (run wA (histA1 ++ histA2))) = c_mig_price cfgA.
Proof. vm_compute. auto. Qed.

(** ** C12: no history extracts value from the curve *)

(** The exact curve bounds what the reserves can lose. *)
Lemma step_area w o : reachable w ->
  let c := w_config w in let w' := step w o in
  quote_area (c_start c) (curve_points c) (p_price (w_pool w'))
  - quote_area (c_start c) (curve_points c) (p_price (w_pool w))
    <= (p_quote (w_pool w') - p_quote (w_pool w)) * 2 ^ 128
  /\ (base_area (c_start c) (curve_points c) (p_price (w_pool w))
      - base_area (c_start c) (curve_points c) (p_price (w_pool w'))
      <= inject_Z (p_base (w_pool w') - p_base (w_pool w)))%Q.
Proof.
  intros R c w'. subst w'. unfold step. destruct (exec w o) as [w1|] eqn:E.
  - assert (D : (exists a, o = OSwap a) \/ same_market (w_pool w) (w_pool w1)).
    { destruct (exec_frame _ _ _ (reachable_inv _ R) E) as (_ & M).
      destruct o; auto. left. eauto. }
    destruct D as [(a & ->)|[]].
    + apply (C11_rounding_favours_pool _ _ _ R E).
    + rewrite sk_price, sk_base, sk_quote. rewrite !Z.sub_diag. split; [lia|].
      change (inject_Z 0) with 0%Q. lra.
  - rewrite !Z.sub_diag. split; [lia|]. change (inject_Z 0) with 0%Q. lra.
Qed.

Lemma run_area ops : forall w, reachable w ->
  let c := w_config w in let w' := run w ops in
  quote_area (c_start c) (curve_points c) (p_price (w_pool w'))
  - quote_area (c_start c) (curve_points c) (p_price (w_pool w))
    <= (p_quote (w_pool w') - p_quote (w_pool w)) * 2 ^ 128
  /\ (base_area (c_start c) (curve_points c) (p_price (w_pool w))
      - base_area (c_start c) (curve_points c) (p_price (w_pool w'))
      <= inject_Z (p_base (w_pool w') - p_base (w_pool w)))%Q.
Proof.
  induction ops as [|o ops IH]; intros w R c w'.
  - subst w'. unfold run. simpl. rewrite !Z.sub_diag. split; [lia|].
    change (inject_Z 0) with 0%Q. lra.
  - subst w'. change (run w (o :: ops)) with (run (step w o) ops).
    assert (R1 : reachable (step w o)) by (apply (reachable_run w [o]); auto).
    destruct (IH _ R1) as (Q1 & B1). destruct (step_area w o R) as (Q2 & B2).
    assert (CF : w_config (step w o) = w_config w)
      by (apply (step_frame w o (reachable_inv _ R))).
    rewrite CF in Q1, B1. subst c. split; [clear - Q1 Q2; lia|].
    set (b2 := p_base (w_pool (run (step w o) ops))) in *.
    set (b1 := p_base (w_pool (step w o))) in *. set (b0 := p_base (w_pool w)) in *.
    replace (b2 - b0) with ((b2 - b1) + (b1 - b0)) by lia. rewrite inject_Z_plus.
    clear - B1 B2. lra.
Qed.

(** Whatever anybody does, the two reserves never shrink together. *)
Theorem C12_no_extraction : forall w ops, reachable w ->
  let w' := run w ops in
  p_base (w_pool w') <= p_base (w_pool w) ->
  p_quote (w_pool w') <= p_quote (w_pool w) ->
  p_base (w_pool w') = p_base (w_pool w) /\ p_quote (w_pool w') = p_quote (w_pool w)
  /\ p_price (w_pool w') = p_price (w_pool w).
Proof.
  intros w ops R w' HB HQ. destruct (run_area ops w R) as (Q & B). fold w' in Q, B.
  pose proof (reachable_inv _ R) as I. pose proof (reachable_inv _ (reachable_run w ops R)) as I'.
  fold w' in I'. assert (CF : w_config w' = w_config w) by (apply (run_frame ops w I)).
  pose proof (created_cfg_ok _ (iv_created _ I)) as K.
  pose proof (iv_price _ I) as P. pose proof (iv_price _ I') as P'. rewrite CF in P'.
  pose proof (ok_curve _ K) as CO.
  pose proof (co_wf _ _ CO) as WF. pose proof (co_start _ _ CO) as ST.
  pose proof (co_mig_hi _ _ CO) as HI.
  set (x := p_price (w_pool w)) in *. set (x' := p_price (w_pool w')) in *.
  assert (EX : x' = x).
  { destruct (Z_lt_le_dec x x') as [L|L].
    - pose proof (quote_area_strict _ _ x x' WF ltac:(lia) L ltac:(lia)) as S.
      assert ((p_quote (w_pool w') - p_quote (w_pool w)) * 2 ^ 128 <= 0)
        by (clear - HQ; nia). lia.
    - destruct (Z_lt_le_dec x' x) as [L2|L2]; [|lia].
      pose proof (base_area_strict _ _ x' x ST WF ltac:(lia) L2 ltac:(lia)) as S.
      assert (G : (inject_Z (p_base (w_pool w') - p_base (w_pool w)) <= inject_Z 0)%Q)
        by (apply injZ_le; lia).
      change (inject_Z 0) with 0%Q in G. clear - S B G. lra. }
  rewrite EX in Q, B. split; [|split; [|exact EX]].
  - assert (G : (inject_Z 0 <= inject_Z (p_base (w_pool w') - p_base (w_pool w)))%Q).
    { change (inject_Z 0) with 0%Q. clear - B. lra. }
    rewrite <- Zle_Qle in G. lia.
  - assert (0 <= (p_quote (w_pool w') - p_quote (w_pool w)) * 2 ^ 128) by lia.
    clear - HQ H. assert (0 < 2 ^ 128) by reflexivity. nia.
Qed.

(** The same about the tokens actually held: after any sequence of swaps (successful or not, by
    any traders, with or without referrers) the pool's two vaults never shrink together, so the
    traders and referrers together never gain. *)
Definition is_swap (o : op) : bool := match o with OSwap _ => true | _ => false end.

Lemma swaps_vault ops : forall w, reachable w -> forallb is_swap ops = true ->
  p_base (w_pool (run w ops)) - p_base (w_pool w) <= w_bvault (run w ops) - w_bvault w
  /\ p_quote (w_pool (run w ops)) - p_quote (w_pool w) <= w_qvault (run w ops) - w_qvault w.
Proof.
  induction ops as [|o ops IH]; intros w R F; [unfold run; simpl; lia|].
  simpl in F. apply andb_true_iff in F. destruct F as (F1 & F2).
  change (run w (o :: ops)) with (run (step w o) ops).
  assert (R1 : reachable (step w o)) by (apply (reachable_run w [o]); auto).
  destruct (IH _ R1 F2) as (A & B).
  assert (S : p_base (w_pool (step w o)) - p_base (w_pool w) <= w_bvault (step w o) - w_bvault w
    /\ p_quote (w_pool (step w o)) - p_quote (w_pool w) <= w_qvault (step w o) - w_qvault w).
  { unfold step. destruct (exec w o) as [w1|] eqn:E; [|lia].
    destruct o; try discriminate F1.
    destruct (C01_swap_conserves_tokens _ _ _ R E)
      as (paid & got & tr & pr & rf & ft & FT & _ & _ & T & P & _ & _ & _ & _ & _ & C).
    destruct (C TBase (or_introl eq_refl)) as (_ & _ & C1).
    destruct (C TQuote (or_intror eq_refl)) as (_ & _ & C2). simpl in C1, C2.
    unfold on in *. destruct ft; lia. }
  lia.
Qed.

Theorem C12_traders_never_gain : forall w ops, reachable w -> forallb is_swap ops = true ->
  let w' := run w ops in
  w_bvault w' <= w_bvault w -> w_qvault w' <= w_qvault w ->
  w_bvault w' = w_bvault w /\ w_qvault w' = w_qvault w.
Proof.
  intros w ops R F w' HB HQ. destruct (swaps_vault ops w R F) as (A & B). fold w' in A, B.
  pose proof (C12_no_extraction w ops R) as N. cbv zeta in N. fold w' in N.
  destruct N as (E1 & E2 & _); [clear - A HB; lia|clear - B HQ; lia|].
  clear - A B HB HQ E1 E2. lia.
Qed.

(** Non-trivial: a trader buys and sells back every base token received; the pool keeps quote. *)
Definition trip : list op :=
  [ swp 500 None QuoteToBase 0 2000000000 0 1700000100 plain_view;
    swp 500 None BaseToQuote 0 1908279533134 0 1700000200 plain_view ].
Example C12_case : all_ok wA trip = true /\ forallb is_swap trip = true
  /\ w_bvault (run wA trip) = w_bvault wA /\ w_qvault wA < w_qvault (run wA trip).
Proof. vm_compute. auto. Qed.

(** ** C13: the quote reserve covers the curve, so every sell can be paid *)
Theorem C13_reserve_covers_curve : forall w, reachable w ->
  quote_area_ceil (c_start (w_config w)) (curve_points (w_config w)) (p_price (w_pool w))
  <= p_quote (w_pool w).
Proof. intros w R. apply (iv_area _ (reachable_inv _ R)). Qed.

(** Whatever sell the program computes, what it takes out of the reserve (the trader's output
    and the fees charged on it) is in the reserve and in the vault. *)
Theorem C13_sell_is_payable : forall w mode a0 a1 fm cur eligible now p1 r,
  reachable w -> 0 <= a0 ->
  get_fee_mode (c_collect_fee_mode (w_config w)) BaseToQuote (fm_referral fm) = Ok fm ->
  p_quote (w_pool w) < c_threshold (w_config w) ->
  update_pre_swap (w_config w) (w_pool w) now = Ok p1 ->
  process_swap (w_config w) p1 mode a0 a1 fm BaseToQuote cur eligible = Ok r ->
  sr_output r + sr_trading r + sr_protocol r + sr_referral r <= p_quote (w_pool w)
  /\ p_quote (w_pool w) <= w_qvault w.
Proof.
  intros w mode a0 a1 fm cur el now p1 r R HA FM OP PRE PS.
  pose proof (reachable_inv _ R) as I. pose proof (created_cfg_ok _ (iv_created _ I)) as K.
  pose proof (created_fees_ok _ (iv_created _ I)) as F.
  destruct (pre_swap_ok _ _ _ _ PRE) as (vt & EP).
  assert (PP : p_price p1 = p_price (w_pool w)) by (rewrite EP; reflexivity).
  destruct (process_swap_facts (w_config w) p1 mode a0 a1 fm BaseToQuote cur el r K F) as
    (num & fee & gross & SF & _); auto. { rewrite PP. apply (iv_price _ I). }
  rewrite PP in SF.
  pose proof (moves_quote_ceil _ _ _ _ _ _ (co_wf _ _ (ok_curve _ K)) (sf_moves _ _ _ _ _ _ _ _ SF)) as M.
  simpl in M.
  pose proof (quote_ceil_nonneg (c_start (w_config w)) (curve_points (w_config w)) (sr_price r)
     (co_wf _ _ (ok_curve _ K))) as NN.
  pose proof (iv_area _ I) as AR.
  pose proof (sf_parts _ _ _ _ _ _ _ _ SF) as PA.
  apply parts_sum in PA; [|apply (sf_fee_nonneg _ _ _ _ _ _ _ _ SF)].
  destruct PA as (PS1 & _).
  pose proof (sf_out _ _ _ _ _ _ _ _ SF) as GO.
  apply fee_mode_cases in FM. destruct FM as (_ & _ & FD).
  rewrite (FD eq_refl) in GO.
  split; [lia|].
  pose proof (iv_quote _ I) as QO. pose proof (iv_nonneg _ I) as NN2.
  assert (P0 : p_progress (w_pool w) = 0) by (apply (iv_complete _ I), OP).
  unfold quote_owed in QO. rewrite P0 in QO. simpl in QO. lia.
Qed.

(** A sell in the middle of the curve meets the hypotheses and takes a positive amount. *)
Example C13_case :
  let w := run wA histA1 in let fm := mkFeeMode false false false in
  0 < quote_area_ceil (c_start cfgA) (curve_points cfgA) (p_price (w_pool w))
  /\ p_quote (w_pool w) < c_threshold cfgA
  /\ get_fee_mode (c_collect_fee_mode cfgA) BaseToQuote (fm_referral fm) = Ok fm
  /\ match update_pre_swap cfgA (w_pool w) 1700000900 with
     | Ok p1 => match process_swap cfgA p1 0 1000000000000 0 fm BaseToQuote 1700000900 false with
                | Ok r => 0 < sr_output r | Err _ => False end
     | Err _ => False end.
Proof. vm_compute. auto. Qed.

(** ** C14: reaching the migration price completes the curve *)
Theorem C14_end_of_curve_completes : forall w, reachable w ->
  (p_price (w_pool w) = c_mig_price (w_config w) ->
     c_threshold (w_config w) <= p_quote (w_pool w))
  /\ (p_quote (w_pool w) < c_threshold (w_config w) ->
     p_price (w_pool w) < c_mig_price (w_config w)).
Proof.
  intros w R. pose proof (reachable_inv _ R) as I. pose proof (created_cfg_ok _ (iv_created _ I)) as K.
  pose proof (iv_area _ I) as A. pose proof (iv_price _ I) as P. pose proof (ok_area _ K) as T.
  assert (X : p_price (w_pool w) = c_mig_price (w_config w) ->
     c_threshold (w_config w) <= p_quote (w_pool w)) by (intros E; rewrite E in A; lia).
  split; [exact X|]. intros Q.
  destruct (Z.eq_dec (p_price (w_pool w)) (c_mig_price (w_config w))) as [E|E]; [apply X in E|]; lia.
Qed.

Example C14_case :
  p_price (w_pool (run wA (histA1 ++ histA2))) = c_mig_price cfgA
  /\ p_price (w_pool (run wA histA1)) < c_mig_price cfgA.
Proof. vm_compute. auto. Qed.

(** ** C15: completion is final *)
Lemma swap_rejected w a : c_threshold (w_config w) <= p_quote (w_pool w) ->
  is_ok (exec w (OSwap a)) = false.
Proof.
  intros H. destruct (exec w (OSwap a)) as [w'|] eqn:E; auto. exfalso.
  unfold exec in E. apply bind_ok in E. destruct E as (u & _ & E).
  unfold do_swap in E. apply bind_ok in E. destruct E as (x & S & _).
  unfold swap_full in S. cbv zeta in S.
  apply bind_ok in S. destruct S as (u1 & _ & S).
  apply bind_ok in S. destruct S as (u2 & _ & S).
  apply bind_ok in S. destruct S as (u3 & _ & S).
  apply bind_ok in S. destruct S as (u4 & G & _). apply require_ok in G.
  unfold is_curve_complete in G. lia.
Qed.

Theorem C15_completion_is_final : forall w ops, reachable w ->
  c_threshold (w_config w) <= p_quote (w_pool w) ->
  let w' := run w ops in
  (forall a, is_ok (exec w' (OSwap a)) = false)
  /\ p_quote (w_pool w') = p_quote (w_pool w)
  /\ p_base (w_pool w') = p_base (w_pool w)
  /\ p_price (w_pool w') = p_price (w_pool w)
  /\ p_finish (w_pool w') = p_finish (w_pool w).
Proof.
  intros w ops R C w'. pose proof (reachable_inv _ R) as I.
  destruct (run_frame ops w I) as [_ CF _ PM _ _ _ _ _ _]. fold w' in CF, PM.
  assert (PN : p_progress (w_pool w) <> 0).
  { intros P. apply (iv_complete _ I) in P. lia. }
  destruct (pm_closed _ _ PM PN).
  split; [|auto]. intros a. apply swap_rejected. rewrite CF, sk_quote. exact C.
Qed.

Example C15_case :
  c_threshold cfgA <= p_quote (w_pool (run wA (histA1 ++ histA2)))
  /\ all_ok wA (histA1 ++ histA2 ++ histA3) = true.
Proof. vm_compute. split; [discriminate|reflexivity]. Qed.

(** ** C24: migration progress moves forward along legal edges *)
Definition no_vesting (c : config) : Prop := c_vesting c = mkLockedVesting 0 0 0 0 0.

Lemma has_vesting_iff v : has_vesting v = false <-> v = mkLockedVesting 0 0 0 0 0.
Proof.
  unfold has_vesting. split.
  - intros H. apply negb_false_iff in H. repeat rewrite andb_true_iff in H.
    destruct H as ((((A & B) & C) & D) & E). destruct v; simpl in *. f_equal; lia.
  - intros ->. reflexivity.
Qed.

Theorem C24_legal_edges : forall w o w', reachable w -> exec w o = Ok w' ->
  let p := p_progress (w_pool w) in let p' := p_progress (w_pool w') in
  p' = p
  (* trading -> complete, only by the swap that reaches the threshold; the vesting stage is
     entered exactly when the config has a locked vesting *)
  \/ (p = 0 /\ (exists a, o = OSwap a) /\ p_quote (w_pool w) < c_threshold (w_config w)
      /\ c_threshold (w_config w) <= p_quote (w_pool w')
      /\ ((no_vesting (w_config w) /\ p' = 2) \/ (~ no_vesting (w_config w) /\ p' = 1)))
  (* complete -> vesting locked, only by creating the locker *)
  \/ (p = 1 /\ p' = 2 /\ o = OCreateLocker)
  (* vesting locked -> migrated, only by a migration of the configured kind *)
  \/ (p = 2 /\ p' = 3 /\ ((c_migration_option (w_config w) = 0 /\ exists ok lp, o = OMigrateV1 ok lp)
                          \/ (c_migration_option (w_config w) = 1 /\ exists x now, o = OMigrateV2 x now))).
Proof.
  intros w o w' R H p p'. pose proof (reachable_inv _ R) as I. pose proof H as H0.
  pose proof (exec_args _ _ _ H) as A. subst p p'.
  destruct o; try (unfold exec in H; rewrite A in H; cbn [require bind] in H).
  - destruct (swap_mono _ _ _ I H0) as (_ & P0 & _ & _ & [(P1 & _)|(T & _ & P1)]).
    + left. congruence.
    + right. left. split; auto. split; [eauto|]. split; [apply (iv_complete _ I), P0|].
      split; auto. unfold no_vesting. rewrite <- has_vesting_iff.
      destruct (has_vesting (c_vesting (w_config w))); [right; split; [discriminate|auto]|left; auto].
  - apply partner_eff in H. destruct H as (_ & E & _). left. rewrite (ef_pool _ _ _ _ E). reflexivity.
  - apply creator_eff in H. destruct H as (_ & E & _). left. rewrite (ef_pool _ _ _ _ E). reflexivity.
  - simpl in A. apply andb_true_iff in A. destruct A as (A1 & A2). apply u64b_ok in A1, A2.
    apply (protocol_eff _ _ _ _ _ I (proj1 A1) (proj1 A2)) in H.
    destruct H as (_ & p' & E & R' & a1 & b1 & a2 & b2 & _ & _ & _ & _ & _ & _ & P').
    left. rewrite (ef_pool _ _ _ _ E), P'. cbv zeta. destruct (_ && _); reflexivity.
  - simpl in A. apply u64b_ok in A. apply (zap_eff _ _ _ _ _ _ _ I (proj1 A)) in H.
    destruct H as (_ & _ & _ & p' & E & R' & _ & a1 & b1 & _ & _ & _ & P').
    left. rewrite (ef_pool _ _ _ _ E), P'. cbv zeta. destruct base; [|destruct (_ && _)]; reflexivity.
  - apply partner_surplus_eff in H; auto. destruct H as (_ & _ & _ & E & _).
    left. rewrite (ef_pool _ _ _ _ E). reflexivity.
  - apply creator_surplus_eff in H; auto. destruct H as (_ & _ & _ & E & _).
    left. rewrite (ef_pool _ _ _ _ E). reflexivity.
  - apply migration_fee_eff in H; auto.
    destruct H as (_ & _ & [(_ & _ & _ & E)|(_ & _ & _ & E)]);
    left; rewrite (ef_pool _ _ _ _ E); reflexivity.
  - apply leftover_eff in H; auto. destruct H as (_ & _ & _ & E & _).
    left. rewrite (ef_pool _ _ _ _ E). reflexivity.
  - apply partner_cf_eff in H; auto. destruct H as (_ & _ & _ & E & _).
    left. rewrite (ef_pool _ _ _ _ E). reflexivity.
  - apply protocol_cf_eff in H; auto. destruct H as (_ & E & _).
    left. rewrite (ef_pool _ _ _ _ E). destruct (negb _); reflexivity.
  - apply transfer_creator_eff in H. destruct H as (_ & _ & _ & _ & E & _).
    left. rewrite (ef_pool _ _ _ _ E). reflexivity.
  - apply locker_eff in H. destruct H as (P1 & E & _).
    right. right. left. rewrite (ef_pool _ _ _ _ E). auto.
  - apply metadata_eff in H. destruct H as (_ & _ & E & _). left. rewrite (ef_pool _ _ _ _ E). reflexivity.
  - apply migrate_v1_eff in H.
    destruct H as (m & m' & fb & fq & eb & eq & b & mb & _ & P2 & O & _ & _ & E & _).
    right. right. right. rewrite (ef_pool _ _ _ _ E). split; auto. split; [reflexivity|]. left. eauto.
  - apply migrate_v2_eff in H.
    destruct H as (fb & fq & eb & eq & l2 & b & mb & h & _ & P2 & O & _ & _ & _ & _ & E & _).
    right. right. right. rewrite (ef_pool _ _ _ _ E). split; auto. split; [reflexivity|]. right. eauto.
  - apply lock_lp_eff in H. destruct H as (m & m' & a & _ & _ & _ & _ & _ & _ & _ & _ & E & _).
    left. rewrite (ef_pool _ _ _ _ E). reflexivity.
  - apply claim_lp_eff in H. destruct H as (m & m' & a & _ & _ & _ & _ & _ & _ & _ & _ & E & _).
    left. rewrite (ef_pool _ _ _ _ E). reflexivity.
  - destruct (exec_frame _ _ _ I H0) as (_ & _). unfold create_operator in H. minv. left. reflexivity.
  - unfold close_operator in H. minv. left. reflexivity.
  - apply recv_base_eff in H. destruct H as (E & _). left. rewrite (ef_pool _ _ _ _ E). reflexivity.
  - apply recv_quote_eff in H. destruct H as (E & _). left. rewrite (ef_pool _ _ _ _ E). reflexivity.
  - apply Ok_inj in H. subst w'. left. reflexivity.
  - minv. left. reflexivity.
  - minv. left. reflexivity.
Qed.

(** Over any history progress never goes back, stays in 0..3, and is 0 exactly while the curve
    is incomplete; hence each migration happens at most once. *)
Theorem C24_progress_monotone : forall w ops, reachable w ->
  0 <= p_progress (w_pool w) <= p_progress (w_pool (run w ops))
  /\ p_progress (w_pool (run w ops)) <= 3
  /\ (p_progress (w_pool w) = 0 <-> p_quote (w_pool w) < c_threshold (w_config w)).
Proof.
  intros w ops R. pose proof (reachable_inv _ R) as I.
  pose proof (pm_progress _ _ (fr_pool _ _ (run_frame ops w I))).
  pose proof (iv_progress _ I). pose proof (iv_progress _ (reachable_inv _ (reachable_run w ops R))).
  split; [lia|]. split; [lia|]. apply (iv_complete _ I).
Qed.

Theorem C24_migrates_once : forall w ops o w1 w2, reachable w ->
  (exists ok lp, o = OMigrateV1 ok lp) \/ (exists x now, o = OMigrateV2 x now) ->
  exec w o = Ok w1 ->
  forall o', (exists ok lp, o' = OMigrateV1 ok lp) \/ (exists x now, o' = OMigrateV2 x now) ->
  exec (run w1 ops) o' <> Ok w2.
Proof.
  intros w ops o w1 w2 R M E o' M' E'.
  assert (R1 : reachable w1) by (eapply reachable_exec; eauto).
  assert (X : forall v p v', reachable v ->
    (exists ok lp, p = OMigrateV1 ok lp) \/ (exists x now, p = OMigrateV2 x now) ->
    exec v p = Ok v' -> p_progress (w_pool v) = 2 /\ p_progress (w_pool v') = 3).
  { clear. intros v p v' R M E. pose proof (exec_args _ _ _ E) as A.
    destruct M as [(ok & lp & ->)|(x & now & ->)];
    unfold exec in E; rewrite A in E; cbn [require bind] in E.
    - apply migrate_v1_eff in E.
      destruct E as (m & m' & fb & fq & eb & eq & b & mb & _ & P2 & O & _ & _ & E & _).
      rewrite (ef_pool _ _ _ _ E). auto.
    - apply migrate_v2_eff in E.
      destruct E as (fb & fq & eb & eq & l2 & b & mb & h & _ & P2 & O & _ & _ & _ & _ & E & _).
      rewrite (ef_pool _ _ _ _ E). auto. }
  destruct (X _ _ _ R M E) as (_ & P3).
  destruct (X _ _ _ (reachable_run w1 ops R1) M' E') as (P2 & _).
  destruct (C24_progress_monotone w1 ops R1) as (Y & _). lia.
Qed.

Example C24_case :
  (p_progress (w_pool wA), p_progress (w_pool (run wA (histA1 ++ histA2))),
   p_progress (w_pool (run wA (histA1 ++ histA2 ++ firstn 4 histA3))),
   p_progress (w_pool (run wA (histA1 ++ histA2 ++ histA3)))) = (0, 1, 2, 3)
  /\ all_ok wA (histA1 ++ histA2 ++ histA3) = true.
Proof. vm_compute. auto. Qed.

Print Assumptions C09_price_in_curve.
Print Assumptions C12_no_extraction.
Print Assumptions C12_traders_never_gain.
Print Assumptions C13_reserve_covers_curve.
Print Assumptions C13_sell_is_payable.
Print Assumptions C14_end_of_curve_completes.
Print Assumptions C15_completion_is_final.
Print Assumptions C24_legal_edges.
Print Assumptions C24_progress_monotone.
Print Assumptions C24_migrates_once.
