(** * Solvency and funding: C16, C17. *)
From Coq Require Import ZArith QArith List Bool Lia ZifyBool Lqa.
From Verif Require Import Base MathModel CurveModel FeeModel ConfigModel PoolModel TxModel
  SystemModel Spec Lib CurveProofs CurveLoops Potential CalcProofs ConfigProofs FeeProofs
  SwapProofs InvProofs InvOps InvReach Effects Frame Bounds PropSwap Fixtures FixturesReach.
Import ListNotations.
Open Scope Z_scope.
#[local] Arguments Z.pow : simpl never.
#[local] Arguments Z.testbit : simpl never.
#[local] Arguments unless : simpl never.

(** At completion the base reserve still holds the migration amount and the vested amount. *)
Lemma reserve_for_migration c s x b : cfg_ok c -> get_initial_base_supply c = Ok s ->
  c_start c <= x <= c_mig_price c ->
  (inject_Z (s - b) <= base_area (c_start c) (curve_points c) x)%Q ->
  c_base_threshold c + vesting_total c <= b.
Proof.
  intros K S X A. destruct (ok_supply _ K s S) as (t & T & L). apply lv_total_eq in T. subst t.
  pose proof (ok_swap_area _ K) as SA.
  assert (M : (base_area (c_start c) (curve_points c) x
               <= base_area (c_start c) (curve_points c) (c_mig_price c))%Q).
  { apply base_area_mono; [apply (co_start _ _ (ok_curve _ K))|apply (co_wf _ _ (ok_curve _ K))|lia]. }
  assert (G : (inject_Z (s - b) <= inject_Z (c_swap_base_amount c))%Q) by lra.
  rewrite <- Zle_Qle in G. lia.
Qed.

Lemma pay_base_safe w to a : a <= w_bvault w -> safe (pay_base w to a).
Proof. intros H. unfold pay_base. rewrite require_true by lia. simpl. apply safe_ok. Qed.
Lemma pay_quote_safe w to a : a <= w_qvault w -> safe (pay_quote w to a).
Proof. intros H. unfold pay_quote. rewrite require_true by lia. simpl. apply safe_ok. Qed.

Lemma swap_transfers_safe w a fm r num fee gross pf cf p2 :
  cfg_ok (w_config w) -> Inv w -> p_progress (w_pool w) = 0 ->
  get_fee_mode (c_collect_fee_mode (w_config w)) (sa_dir a) (is_some (sa_referral a)) = Ok fm ->
  swap_facts (w_config w) (p_price (w_pool w)) fm (sa_dir a) r num fee gross ->
  applied (w_config w) (w_pool w) p2 r fm (sa_dir a) pf cf gross ->
  safe (swap_transfers (set_w_pool w p2) a fm r).
Proof.
  intros K I P0 FM SF AP.
  pose proof (iv_quote _ I) as IQ. pose proof (iv_base _ I) as IB.
  unfold quote_owed in IQ. unfold base_owed in IB. rewrite P0 in IQ, IB. simpl in IQ, IB.
  pose proof (iv_nonneg _ I) as (N1 & N2 & N3 & N4 & N5 & N6 & N7 & N8 & N9 & N10). clear I P0.
  destruct SF as [_ _ FL FN PARTS IN OUT _ _ _ EX GR ON _].
  apply parts_sum in PARTS; auto. destruct PARTS as (PS1 & PS2 & PS3 & PS4 & _).
  apply fee_mode_cases in FM. destruct FM as (_ & FB & FD).
  pose proof (ap_base _ _ _ _ _ _ _ _ _ AP) as PB. pose proof (ap_quote _ _ _ _ _ _ _ _ _ AP) as PQ.
  pose proof (ap_base_nonneg _ _ _ _ _ _ _ _ _ AP) as PBN.
  pose proof (ap_quote_nonneg _ _ _ _ _ _ _ _ _ AP) as PQN. clear AP.
  unfold swap_transfers. apply safe_bind.
  - destruct (sa_dir a).
    + specialize (PQN eq_refl). simpl in PQ.
      apply safe_bind; [unfold recv_base; safe|]. intros w1 R. apply pay_quote_safe.
      unfold recv_base, log in R. minv. simpl. lia.
    + specialize (PBN eq_refl). simpl in PB.
      apply safe_bind; [unfold recv_quote; safe|]. intros w1 R. apply pay_base_safe.
      unfold recv_quote, log in R. minv. simpl.
      destruct (fm_on_input fm); lia.
  - intros w1 T. destruct (sa_referral a); [|apply safe_ok].
    destruct (sa_dir a).
    + specialize (PQN eq_refl). simpl in PQ. rewrite (FD eq_refl) in *. rewrite FB.
      apply pay_quote_safe.
      unfold recv_base, pay_quote, log in T. minv. simpl in *. lia.
    + specialize (PBN eq_refl). simpl in PB. rewrite FB. destruct (fm_on_input fm); simpl.
      * apply pay_quote_safe. unfold recv_quote, pay_base, log in T. minv. simpl in *. lia.
      * apply pay_base_safe. unfold recv_quote, pay_base, log in T. minv. simpl in *. lia.
Qed.

Lemma swap_safe w a : reachable w -> safe (exec w (OSwap a)).
Proof.
  intros R. pose proof (reachable_inv _ R) as I.
  pose proof (created_cfg_ok _ (iv_created _ I)) as K.
  pose proof (created_fees_ok _ (iv_created _ I)) as FK.
  unfold exec. apply safe_bind; [safe|]. intros u A. apply require_ok in A.
  assert (HA : 0 <= sa_amount0 a).
  { simpl in A. repeat rewrite andb_true_iff in A. destruct A as (((A & _) & _) & _).
    apply u64b_ok in A. apply A. }
  unfold do_swap. apply safe_bind; [|intros; safe]. unfold swap_full. cbv zeta.
  apply safe_bind; [safe|]. intros u1 _.
  apply safe_bind; [auto with safedb|]. intros cur CP.
  apply safe_bind; [auto with safedb|]. intros u3 _.
  apply safe_bind; [safe|]. intros u4 OP. apply require_ok in OP. unfold is_curve_complete in OP.
  apply safe_bind; [auto with safedb|]. intros p1 PRE.
  apply safe_bind; [auto with safedb|]. intros fm FM.
  apply safe_bind; [auto with safedb|]. intros r PS.
  apply safe_bind; [auto with safedb|]. intros p2 AP.
  pose proof (pre_swap_ok _ _ _ _ PRE) as (vt & EP1).
  assert (PP : p_price p1 = p_price (w_pool w)) by (rewrite EP1; reflexivity).
  apply process_swap_facts in PS; auto; [|rewrite PP; apply (iv_price _ I)].
  destruct PS as (num & fee & gross & SF & _). rewrite PP in SF.
  pose proof (apply_ok _ _ _ _ _ _ _ gross fee AP (sf_fee_nonneg _ _ _ _ _ _ _ _ SF)
               (sf_parts _ _ _ _ _ _ _ _ SF) (sf_out _ _ _ _ _ _ _ _ SF))
    as (pf & cf & APP & PR & FN).
  assert (APP' : applied (w_config w) (w_pool w) p2 r fm (sa_dir a) pf cf gross).
  { rewrite EP1 in APP. destruct APP. constructor; auto.
    match goal with X : same_rest _ _ |- _ => destruct X; constructor; auto end. }
  assert (P0 : p_progress (w_pool w) = 0) by (apply (iv_complete _ I); lia).
  apply safe_bind; [eapply swap_transfers_safe; eauto|]. intros w1 TR.
  apply swap_transfers_ok in TR. destruct TR as (B & Qv & L & PO & W1). simpl in B, Qv, L, PO.
  pose proof (swap_vault_move w w1 a fm r num fee gross pf cf p2 K FM SF APP' B Qv) as VM.
  destruct (iv_supply _ I) as (s & S1 & S2).
  destruct (swap_potentials w a fm r num fee gross pf cf p2 s K SF APP' (iv_area _ I) S2) as (_ & SUP).
  assert (CW : w_config w1 = w_config w) by (rewrite W1; reflexivity).
  apply safe_bind; [|intros; safe].
  unfold finish_curve. cbv zeta. rewrite CW, PO. destruct (is_curve_complete _ _); [|safe].
  apply safe_bind; [safe|]. intros fees FE. apply fees_sum_eq in FE.
  apply safe_bind; [safe|]. intros x X. apply sadd_ok in X.
  apply safe_bind; [safe|]. intros t T. apply lv_total_eq in T.
  apply safe_bind; [safe|]. intros rq RQ. apply sadd_ok in RQ.
  rewrite require_true; [simpl; safe|].
  pose proof (sf_price _ _ _ _ _ _ _ _ SF) as PRICE2.
  rewrite <- (ap_price _ _ _ _ _ _ _ _ _ APP') in PRICE2.
  pose proof (reserve_for_migration _ _ _ _ K S1 PRICE2 SUP) as RM.
  pose proof (iv_base _ I) as IB. unfold base_owed in IB. rewrite P0 in IB. simpl in IB.
  pose proof (vm_base _ _ _ VM) as VB. clear - FE X T RQ RM IB VB. lia.
Qed.

(** ** C16: completion is never blocked, and leaves enough base to migrate *)
Theorem C16_never_insufficient_for_migration : forall w a, reachable w ->
  exec w (OSwap a) <> Err EInsufficientLiquidityForMigration.
Proof. intros w a R H. apply swap_safe in H; auto. discriminate. Qed.

Theorem C16_base_left_at_completion : forall w a w', reachable w ->
  exec w (OSwap a) = Ok w' -> c_threshold (w_config w') <= p_quote (w_pool w') ->
  c_base_threshold (w_config w') + vesting_total (w_config w')
  + (p_partner_base (w_pool w') + p_creator_base (w_pool w') + p_protocol_base (w_pool w'))
  <= w_bvault w'.
Proof.
  intros w a w' R H C. destruct (swap_eff _ _ _ (reachable_inv _ R) H)
    as (fm & r & num & fee & gross & pf & cf & cur & p1 & SE & _ & _ & E & _).
  destruct (se_pool _ _ _ _ _ _ _ _ _ _ _ SE) as (p2 & _ & _ & _ & CASE).
  rewrite (ef_config _ _ _ _ E) in *.
  destruct CASE as [(LT & PW)|(GE & (t & fees & T & FE & BR) & PW)]; [rewrite PW in C; lia|].
  apply lv_total_eq in T. apply fees_sum_eq in FE. rewrite PW. simpl. clear - T FE BR. lia.
Qed.

(** The last swap of history A2 completes the curve of A. *)
Example C16_case : exists a, histA2 = [OSwap a]
  /\ c_threshold cfgA <= p_quote (w_pool (run (run wA histA1) [OSwap a]))
  /\ all_ok (run wA histA1) [OSwap a] = true.
Proof. eexists. split; [reflexivity|]. vm_compute. split; [discriminate|reflexivity]. Qed.

(** ** C17: solvency *)

(** In every state every vault covers everything owed from it ([Spec.v]). *)
Theorem C17_solvent : forall w, reachable w ->
  quote_owed w <= w_qvault w /\ base_owed w <= w_bvault w
  /\ lamports_owed w <= w_lamports w /\ lp_owed w <= w_lp w.
Proof.
  intros w R. apply reachable_inv in R. split; [apply R|]. split; [apply R|]. split; apply R.
Qed.

(** Before completion this means reserves plus unclaimed fees. *)
Theorem C17_solvent_while_trading : forall w, reachable w ->
  p_quote (w_pool w) < c_threshold (w_config w) ->
  p_base (w_pool w) + p_partner_base (w_pool w) + p_creator_base (w_pool w)
    + p_protocol_base (w_pool w) <= w_bvault w
  /\ p_quote (w_pool w) + p_partner_quote (w_pool w) + p_creator_quote (w_pool w)
    + p_protocol_quote (w_pool w) <= w_qvault w.
Proof.
  intros w R O. destruct (C17_solvent w R) as (Q & B & _). apply reachable_inv in R.
  apply (iv_complete _ R) in O. unfold quote_owed in Q. unfold base_owed in B.
  rewrite O in Q, B. simpl in Q, B. lia.
Qed.

(** No swap ever fails because the pool's vaults are short of tokens. *)
Theorem C17_swaps_are_funded : forall w a, reachable w ->
  exec w (OSwap a) <> Err ETokenInsufficientFunds.
Proof. intros w a R H. apply swap_safe in H; auto. discriminate. Qed.

(** Every entitled party can always be paid: each claim or withdrawal by the entitled signer
    succeeds, in every state in which it is due, whatever happened before. *)
Lemma pay_base_live w to a : a <= w_bvault w -> exists w', pay_base w to a = Ok w'
  /\ w_bvault w' = w_bvault w - a /\ w_qvault w' = w_qvault w.
Proof. intros H. unfold pay_base. rewrite require_true by lia. simpl. eexists. split; [reflexivity|]. auto. Qed.
Lemma pay_quote_live w to a : a <= w_qvault w -> exists w', pay_quote w to a = Ok w'.
Proof. intros H. unfold pay_quote. rewrite require_true by lia. simpl. eauto. Qed.

Lemma unless_nonneg b x : 0 <= x -> 0 <= unless b x.
Proof. unfold unless. destruct b; lia. Qed.

(** Everything owed in quote and base tokens, term by term. *)
Record due (w : world) (mp mc sp sc sr : Z) : Prop := {
  du_mp : 0 <= mp; du_mc : 0 <= mc; du_sp : 0 <= sp; du_sc : 0 <= sc; du_sr : 0 <= sr;
  du_pq : 0 <= p_partner_quote (w_pool w); du_cq : 0 <= p_creator_quote (w_pool w);
  du_rq : 0 <= p_protocol_quote (w_pool w); du_mq : 0 <= p_mig_quote_fee (w_pool w);
  du_pb : 0 <= p_partner_base (w_pool w); du_cb : 0 <= p_creator_base (w_pool w);
  du_rb : 0 <= p_protocol_base (w_pool w); du_mb : 0 <= p_mig_base_fee (w_pool w);
  du_quote : p_partner_quote (w_pool w) + p_creator_quote (w_pool w) + p_protocol_quote (w_pool w)
    + p_mig_quote_fee (w_pool w) + mp + mc + sp + sc + sr <= w_qvault w;
  du_base : p_partner_base (w_pool w) + p_creator_base (w_pool w) + p_protocol_base (w_pool w)
    + p_mig_base_fee (w_pool w) <= w_bvault w;
  du_eq : c_threshold (w_config w) <= p_quote (w_pool w) ->
    mp = unless (Z.testbit (p_mig_fee_status (w_pool w)) 2) (migration_fee_partner (w_config w))
    /\ mc = unless (Z.testbit (p_mig_fee_status (w_pool w)) 1) (migration_fee_creator (w_config w))
    /\ sp = unless (p_partner_surplus (w_pool w) =? 1)
              (surplus_partner (w_config w) (p_quote (w_pool w)))
    /\ sc = unless (p_creator_surplus (w_pool w) =? 1)
              (surplus_creator (w_config w) (p_quote (w_pool w)))
    /\ sr = unless (p_protocol_surplus (w_pool w) =? 1)
              (surplus_protocol (w_config w) (p_quote (w_pool w)))
}.

Lemma due_ok w : Inv w -> exists mp mc sp sc sr, due w mp mc sp sc sr.
Proof.
  intros I. pose proof (created_cfg_ok _ (iv_created _ I)) as K.
  pose proof (iv_quote _ I) as IQ. pose proof (iv_base _ I) as IB.
  unfold quote_owed in IQ. unfold base_owed in IB. cbv zeta in IQ, IB.
  pose proof (iv_nonneg _ I) as (N1 & N2 & N3 & N4 & N5 & N6 & N7 & N8 & N9 & N10).
  pose proof (iv_premig _ I) as PM. pose proof (iv_progress _ I) as PG.
  pose proof (mig_fee_parts _ K) as (M1 & M2 & M3 & M4 & M5). pose proof (ok_base _ K) as OB.
  destruct (ok_vest _ K) as (t & T & T0 & _). apply lv_total_eq in T. subst t.
  pose proof (iv_complete _ I) as CP.
  destruct (Z_lt_le_dec (p_quote (w_pool w)) (c_threshold (w_config w))) as [L|L].
  - apply CP in L as P0. clear CP I. rewrite P0 in *. simpl in IQ, IB.
    destruct (PM ltac:(lia)) as (E1 & E2 & _).
    exists 0, 0, 0, 0, 0. constructor; try lia.
  - assert (P0 : p_progress (w_pool w) <> 0) by (intros X; apply CP in X; lia). clear CP I.
    rewrite (proj2 (Z.eqb_neq _ _) P0) in IQ, IB.
    pose proof (surplus_parts _ _ K L) as (S1 & S2 & S3 & _).
    eexists _, _, _, _, _. 
    pose proof (unless_nonneg (Z.testbit (p_mig_fee_status (w_pool w)) 2) _ M2) as U1.
    pose proof (unless_nonneg (Z.testbit (p_mig_fee_status (w_pool w)) 1) _ M3) as U2.
    pose proof (unless_nonneg (p_partner_surplus (w_pool w) =? 1) _ S1) as U3.
    pose proof (unless_nonneg (p_creator_surplus (w_pool w) =? 1) _ S2) as U4.
    pose proof (unless_nonneg (p_protocol_surplus (w_pool w) =? 1) _ S3) as U5.
    constructor; [exact U1|exact U2|exact U3|exact U4|exact U5|assumption|assumption|assumption
      |assumption|assumption|assumption|assumption|assumption| | |intros _; repeat split].
    + clear - IQ PM M5 P0. destruct (Z.eq_dec (p_progress (w_pool w)) 3) as [E|E].
      * rewrite E in *. simpl in IQ. lia.
      * rewrite (proj2 (Z.eqb_neq _ _) E) in IQ. destruct (PM E) as (_ & -> & _). lia.
    + clear - IB PM P0 OB T0 PG. destruct (Z.eq_dec (p_progress (w_pool w)) 3) as [E|E].
      * rewrite E in *. simpl in IB. lia.
      * destruct (PM E) as (-> & _).
        destruct (p_progress (w_pool w) =? 1) eqn:E1; [lia|].
        destruct (p_progress (w_pool w) =? 2) eqn:E2; lia.
Qed.

Lemma u64b_intro z : u64ok z -> u64b z = true.
Proof. unfold u64ok, u64b. intros. apply andb_true_iff. lia. Qed.

Lemma is_ok_ex {A} (r : res A) : (exists a, r = Ok a) -> is_ok r = true.
Proof. intros (a & ->). reflexivity. Qed.

(** Unclaimed trading fees: the partner, the creator. *)
Theorem C17_partner_can_claim : forall w to b q, reachable w -> u64ok b -> u64ok q ->
  is_ok (exec w (OClaimPartner (c_fee_claimer (w_config w)) to b q)) = true.
Proof.
  intros w to b q R HB HQ. destruct (due_ok _ (reachable_inv _ R)) as (mp & mc & sp & sc & sr & []).
  unfold exec. rewrite require_true by (simpl; rewrite !u64b_intro; auto). cbn [bind].
  unfold claim_partner_fee, check_partner. rewrite require_true by lia. cbn [bind].
  unfold claim_partner_trading_fee. cbv zeta.
  rewrite ssub_intro by lia. cbn [bind]. rewrite ssub_intro by lia. cbn [bind].
  unfold pay_base. rewrite require_true by (simpl; lia). cbn [bind].
  unfold pay_quote. rewrite require_true by (simpl; lia). reflexivity.
Qed.

Theorem C17_creator_can_claim : forall w to b q, reachable w -> u64ok b -> u64ok q ->
  is_ok (exec w (OClaimCreator (p_creator (w_pool w)) to b q)) = true.
Proof.
  intros w to b q R HB HQ. destruct (due_ok _ (reachable_inv _ R)) as (mp & mc & sp & sc & sr & []).
  unfold exec. rewrite require_true by (simpl; rewrite !u64b_intro; auto). cbn [bind].
  unfold claim_creator_fee, check_creator. rewrite require_true by lia. cbn [bind].
  unfold claim_creator_trading_fee. cbv zeta.
  rewrite ssub_intro by lia. cbn [bind]. rewrite ssub_intro by lia. cbn [bind].
  unfold pay_base. rewrite require_true by (simpl; lia). cbn [bind].
  unfold pay_quote. rewrite require_true by (simpl; lia). reflexivity.
Qed.

Lemma pcs_live total : 0 <= total <= U64_MAX ->
  get_partner_and_creator_surplus total = Ok (total * 80 / 100) /\ 0 <= total * 80 / 100 <= total.
Proof.
  intros H. assert (X : 0 <= total * 80 / 100 <= total).
  { split; [apply div_nonneg; lia|]. apply Z.div_le_upper_bound; lia. }
  split; auto. unfold get_partner_and_creator_surplus.
  change PARTNER_AND_CREATOR_SURPLUS_SHARE with 80. apply mul_div_cast_down_intro; try lia.
  unfold U64_MAX, U128_MAX in *. lia.
Qed.

Lemma split_live c f : 0 <= f <= U64_MAX -> 0 <= c_creator_trading_fee_pct c <= 100 ->
  exists x, split_partner_and_creator_fee c f = Ok x.
Proof.
  intros F P. unfold split_partner_and_creator_fee. destruct (_ =? 0); [eauto|].
  assert (X : 0 <= f * c_creator_trading_fee_pct c / 100 <= f).
  { split; [apply div_nonneg; nia|]. apply Z.div_le_upper_bound; nia. }
  rewrite mul_div_cast_down_intro; [|unfold U64_MAX, U128_MAX in *; nia|lia|lia].
  cbn [bind]. rewrite ssub_intro by lia. cbn [bind]. eauto.
Qed.

Lemma partner_surplus_live p c : cfg_ok c -> c_threshold c <= p_quote p <= U64_MAX ->
  get_partner_surplus p c (c_threshold c) = Ok (surplus_partner c (p_quote p)).
Proof.
  intros K H. pose proof (ok_threshold _ K). pose proof (ok_ctf _ K).
  assert (E : exists a, get_partner_surplus p c (c_threshold c) = Ok a).
  { unfold get_partner_surplus, get_total_surplus. rewrite ssub_intro by lia. cbn [bind].
    destruct (pcs_live (p_quote p - c_threshold c)) as (E & B); [lia|]. rewrite E. cbn [bind].
    destruct (split_live c ((p_quote p - c_threshold c) * 80 / 100)) as (x & X); [lia|auto|].
    rewrite X. cbn [bind]. eauto. }
  destruct E as (a & E). rewrite E. f_equal. apply partner_surplus_eq; auto. lia.
Qed.

Lemma creator_surplus_live p c : cfg_ok c -> c_threshold c <= p_quote p <= U64_MAX ->
  get_creator_surplus p c (c_threshold c) = Ok (surplus_creator c (p_quote p)).
Proof.
  intros K H. pose proof (ok_threshold _ K). pose proof (ok_ctf _ K).
  assert (E : exists a, get_creator_surplus p c (c_threshold c) = Ok a).
  { unfold get_creator_surplus, get_total_surplus. rewrite ssub_intro by lia. cbn [bind].
    destruct (pcs_live (p_quote p - c_threshold c)) as (E & B); [lia|]. rewrite E. cbn [bind].
    destruct (split_live c ((p_quote p - c_threshold c) * 80 / 100)) as (x & X); [lia|auto|].
    rewrite X. cbn [bind]. eauto. }
  destruct E as (a & E). rewrite E. f_equal. apply creator_surplus_eq; auto. lia.
Qed.

Lemma protocol_surplus_live p c : cfg_ok c -> c_threshold c <= p_quote p <= U64_MAX ->
  get_protocol_surplus p (c_threshold c) = Ok (surplus_protocol c (p_quote p)).
Proof.
  intros K H. pose proof (ok_threshold _ K).
  unfold get_protocol_surplus, get_total_surplus. rewrite ssub_intro by lia. cbn [bind].
  destruct (pcs_live (p_quote p - c_threshold c)) as (E & B); [lia|]. rewrite E. cbn [bind].
  rewrite ssub_intro by lia. reflexivity.
Qed.

(** The surplus, once the curve is complete and until it is taken. *)
Theorem C17_partner_can_withdraw_surplus : forall w to, reachable w ->
  c_threshold (w_config w) <= p_quote (w_pool w) -> p_partner_surplus (w_pool w) = 0 ->
  is_ok (exec w (OPartnerSurplus (c_fee_claimer (w_config w)) to)) = true.
Proof.
  intros w to R C F. pose proof (reachable_inv _ R) as I.
  pose proof (created_cfg_ok _ (iv_created _ I)) as K.
  pose proof (bd_pquote _ (reachable_bounded _ R)) as B.
  destruct (due_ok _ I) as (mp & mc & sp & sc & sr & []).
  destruct (du_eq0 C) as (_ & _ & E & _). rewrite F in E. change (0 =? 1) with false in E. unfold unless in E.
  unfold exec. rewrite require_true by reflexivity. cbn [bind].
  unfold withdraw_partner_surplus, check_partner. rewrite require_true by lia. cbn [bind]. cbv zeta.
  rewrite require_true by (unfold is_curve_complete; lia). cbn [bind].
  rewrite require_true by lia. cbn [bind].
  rewrite partner_surplus_live by (auto; lia). cbn [bind].
  unfold pay_quote. rewrite require_true by (simpl; lia). reflexivity.
Qed.

Theorem C17_creator_can_withdraw_surplus : forall w to, reachable w ->
  c_threshold (w_config w) <= p_quote (w_pool w) -> p_creator_surplus (w_pool w) = 0 ->
  is_ok (exec w (OCreatorSurplus (p_creator (w_pool w)) to)) = true.
Proof.
  intros w to R C F. pose proof (reachable_inv _ R) as I.
  pose proof (created_cfg_ok _ (iv_created _ I)) as K.
  pose proof (bd_pquote _ (reachable_bounded _ R)) as B.
  destruct (due_ok _ I) as (mp & mc & sp & sc & sr & []).
  destruct (du_eq0 C) as (_ & _ & _ & E & _). rewrite F in E. change (0 =? 1) with false in E. unfold unless in E.
  unfold exec. rewrite require_true by reflexivity. cbn [bind].
  unfold withdraw_creator_surplus, check_creator. rewrite require_true by lia. cbn [bind]. cbv zeta.
  rewrite require_true by (unfold is_curve_complete; lia). cbn [bind].
  rewrite require_true by lia. cbn [bind].
  rewrite creator_surplus_live by (auto; lia). cbn [bind].
  unfold pay_quote. rewrite require_true by (simpl; lia). reflexivity.
Qed.

(** The protocol's fees and surplus share. *)
Theorem C17_protocol_can_claim : forall w s b q, reachable w -> u64ok b -> u64ok q ->
  permitted w s 0 -> is_ok (exec w (OClaimProtocol s b q)) = true.
Proof.
  intros w s b q R HB HQ PE. pose proof (reachable_inv _ R) as I.
  pose proof (created_cfg_ok _ (iv_created _ I)) as K.
  pose proof (iv_flags _ I) as (_ & _ & FL & _).
  destruct (reachable_bounded _ R) as [BB BQ B].
  destruct (due_ok _ I) as (mp & mc & sp & sc & sr & []).
  unfold exec. rewrite require_true by (simpl; rewrite !u64b_intro; auto). cbn [bind].
  unfold claim_protocol_fee. unfold CLAIM_PROTOCOL_FEE.
  rewrite (proj2 (check_operator_ok w s 0 ltac:(lia)) PE). cbn [bind].
  destruct HB as (HB & _), HQ as (HQ & _).
  unfold claim_protocol_base_fee. cbv zeta.
  rewrite ssub_intro by lia. cbn [bind]. rewrite ssub_intro by lia. cbn [bind].
  cbn [p_mig_base_fee set_protocol_base].
  rewrite ssub_intro by lia. cbn [bind]. rewrite sadd_intro by lia. cbn [bind].
  set (x := Z.min (p_protocol_base (w_pool w)) b
            + Z.min (p_mig_base_fee (w_pool w)) (b - Z.min (p_protocol_base (w_pool w)) b)).
  set (p1 := set_mig_base_fee _ _).
  assert (XB : x <= w_bvault w) by lia.
  assert (W1 : exists w1, (if 0 <? x then pay_base (set_w_pool w p1) PTreasury x
       else Ok (set_w_pool w p1)) = Ok w1 /\ w_qvault w1 = w_qvault w).
  { destruct (0 <? x); [|eauto]. unfold pay_base. rewrite require_true by (simpl; lia).
    cbn [bind]. eauto. }
  destruct W1 as (w1 & -> & Q1). cbn [bind].
  unfold claim_protocol_quote_fee_and_surplus, claim_protocol_quote_fee. cbv zeta.
  change (p_protocol_quote p1) with (p_protocol_quote (w_pool w)).
  rewrite ssub_intro by lia. cbn [bind]. rewrite ssub_intro by lia. cbn [bind].
  cbn [p_mig_quote_fee set_protocol_quote].
  change (p_mig_quote_fee p1) with (p_mig_quote_fee (w_pool w)).
  rewrite ssub_intro by lia. cbn [bind]. rewrite sadd_intro by lia. cbn [bind].
  set (y := Z.min (p_protocol_quote (w_pool w)) q
            + Z.min (p_mig_quote_fee (w_pool w)) (q - Z.min (p_protocol_quote (w_pool w)) q)).
  set (p2 := set_mig_quote_fee _ _).
  change (p_protocol_surplus p2) with (p_protocol_surplus (w_pool w)).
  unfold is_curve_complete.
  change (p_quote p2) with (p_quote (w_pool w)).
  destruct ((p_protocol_surplus (w_pool w) =? 0) && (c_threshold (w_config w) <=? p_quote (w_pool w))) eqn:C.
  - apply andb_true_iff in C. destruct C as (C1 & C2).
    destruct (du_eq0 ltac:(lia)) as (_ & _ & _ & _ & E).
    assert (Z0 : p_protocol_surplus (w_pool w) = 0) by lia. rewrite Z0 in E.
    change (0 =? 1) with false in E. unfold unless in E.
    rewrite protocol_surplus_live; [|auto|change (p_quote p2) with (p_quote (w_pool w)); lia].
    change (p_quote p2) with (p_quote (w_pool w)). cbn [bind].
    rewrite sadd_intro by lia. cbn [bind].
    destruct (0 <? _); [|reflexivity]. unfold pay_quote.
    rewrite require_true by (simpl; lia). reflexivity.
  - cbn [bind]. destruct (0 <? y); [|reflexivity]. unfold pay_quote.
    rewrite require_true by (simpl; lia). reflexivity.
Qed.

(** The migration fee, once the curve is complete and until it is taken. *)
Lemma mfd_live c : cfg_ok c ->
  get_migration_fee_distribution c = Ok (migration_fee_partner c, migration_fee_creator c).
Proof.
  intros K. assert (E : exists a b, get_migration_fee_distribution c = Ok (a, b)).
  { unfold get_migration_fee_distribution.
    destruct (migration_quote_ok (c_threshold c) (c_migration_fee_pct c) (ok_threshold _ K) (ok_mfp _ K))
      as (q & f & E & Q1 & Q2 & Q3 & Q4). rewrite E. cbn [bind snd]. cbv zeta.
    pose proof (ok_cmfp _ K). pose proof (ok_threshold _ K).
    assert (X : 0 <= f * c_creator_migration_fee_pct c / 100 <= f).
    { split; [apply div_nonneg; nia|]. apply Z.div_le_upper_bound; nia. }
    rewrite mul_div_cast_down_intro; [|unfold U64_MAX, U128_MAX in *; nia|lia|lia].
    cbn [bind]. rewrite ssub_intro by lia. cbn [bind]. eauto. }
  destruct E as (a & b & E). rewrite E. apply mig_fee_dist_eq in E; auto. destruct E as (-> & ->). auto.
Qed.

Lemma status_bit w bit mask : Inv w -> (bit = 2 /\ mask = 4) \/ (bit = 1 /\ mask = 2) ->
  Z.testbit (p_mig_fee_status (w_pool w)) bit = false ->
  bit_unset (p_mig_fee_status (w_pool w)) mask = true.
Proof.
  intros I M B. destruct (iv_status _ I) as [X|[X|[X|X]]]; rewrite X in *;
  destruct M as [(-> & ->)|(-> & ->)]; vm_compute in B; try discriminate B; reflexivity.
Qed.

Theorem C17_migration_fee_can_be_withdrawn : forall w to, reachable w ->
  c_threshold (w_config w) <= p_quote (w_pool w) ->
  (Z.testbit (p_mig_fee_status (w_pool w)) 2 = false ->
     is_ok (exec w (OMigrationFee (c_fee_claimer (w_config w)) to 0)) = true)
  /\ (Z.testbit (p_mig_fee_status (w_pool w)) 1 = false ->
     is_ok (exec w (OMigrationFee (p_creator (w_pool w)) to 1)) = true).
Proof.
  intros w to R C. pose proof (reachable_inv _ R) as I.
  pose proof (created_cfg_ok _ (iv_created _ I)) as K.
  destruct (due_ok _ I) as (mp & mc & sp & sc & sr & []).
  destruct (du_eq0 C) as (E1 & E2 & _).
  unfold exec, withdraw_migration_fee. cbn [args_ok require bind]. cbv zeta.
  rewrite require_true by (unfold is_curve_complete; lia). cbn [bind].
  rewrite mfd_live by auto. cbn [bind].
  split; intros B; rewrite B in *; unfold unless in *.
  - change (0 =? 0) with true. cbv iota. rewrite require_true by lia. cbn [bind].
    change PARTNER_MIGRATION_FEE_MASK with 4. rewrite (status_bit w 2) by auto. cbn [require bind].
    unfold pay_quote. rewrite require_true by (simpl; lia). reflexivity.
  - change (1 =? 0) with false. change (1 =? 1) with true. cbv iota.
    rewrite require_true by lia. cbn [bind].
    change CREATOR_MIGRATION_FEE_MASK with 2. rewrite (status_bit w 1) by auto. cbn [require bind].
    unfold pay_quote. rewrite require_true by (simpl; lia). reflexivity.
Qed.

(** The vesting can be locked, and the leftover handed out. *)
Theorem C17_vesting_can_be_locked : forall w, reachable w -> p_progress (w_pool w) = 1 ->
  is_ok (exec w OCreateLocker) = true.
Proof.
  intros w R P. pose proof (reachable_inv _ R) as I.
  pose proof (created_cfg_ok _ (iv_created _ I)) as K.
  pose proof (iv_base _ I) as IB. unfold base_owed in IB. rewrite P in IB. simpl in IB.
  pose proof (iv_nonneg _ I) as (N1 & N2 & N3 & N4 & N5 & N6 & _). pose proof (ok_base _ K) as OB.
  destruct (ok_vest _ K) as (t & T & _). pose proof T as T'. apply lv_total_eq in T'. subst t.
  unfold exec, create_locker. cbn [args_ok require bind]. cbv zeta. rewrite P. cbn [require bind].
  change (1 =? PostBondingCurve) with true. cbn [require bind]. rewrite T. cbn [bind].
  unfold pay_base. rewrite require_true by (clear - IB N1 N3 N5 OB; lia). reflexivity.
Qed.

Theorem C17_leftover_can_be_withdrawn : forall w, reachable w -> p_progress (w_pool w) = 3 ->
  is_fixed_supply (w_config w) = true -> p_leftover (w_pool w) = 0 ->
  is_ok (exec w OLeftover) = true.
Proof.
  intros w R P F L. pose proof (reachable_inv _ R) as I.
  destruct (reachable_bounded _ R) as [BB BQ B].
  destruct (due_ok _ I) as (mp & mc & sp & sc & sr & []).
  unfold exec, withdraw_leftover. cbn [args_ok require bind]. cbv zeta. rewrite P, F, L.
  change (3 =? CreatedPool) with true. change (0 =? 0) with true. cbn [require bind].
  unfold get_protocol_and_trading_base_fee. rewrite sadd_intro by lia. cbn [bind].
  rewrite sadd_intro by lia. cbn [bind]. rewrite ssub_intro by lia. cbn [bind].
  rewrite ssub_intro by lia. cbn [bind].
  unfold pay_base. rewrite require_true by (simpl; lia). reflexivity.
Qed.

(** The pool creation fee. *)
Lemma creation_live c : cfg_ok c ->
  split_pool_creation_fee c = Ok (creation_fee_protocol c, c_pool_creation_fee c - creation_fee_protocol c)
  /\ 0 <= creation_fee_protocol c <= c_pool_creation_fee c.
Proof.
  intros K. pose proof (ok_pcf _ K) as P.
  assert (X : 0 <= creation_fee_protocol c <= c_pool_creation_fee c).
  { unfold creation_fee_protocol. split; [apply div_nonneg; lia|]. apply Z.div_le_upper_bound; lia. }
  split; auto. unfold split_pool_creation_fee. change PROTOCOL_POOL_CREATION_FEE_PERCENT with 10.
  fold (creation_fee_protocol c).
  rewrite mul_div_cast_down_intro; [|unfold U128_MAX, U64_MAX in *; lia|lia|unfold creation_fee_protocol in X; unfold U64_MAX in *; lia].
  cbn [bind]. fold (creation_fee_protocol c). rewrite ssub_intro by lia. reflexivity.
Qed.

Lemma cbit w bit mask : Inv w -> (bit = 1 /\ mask = 2) \/ (bit = 0 /\ mask = 1) ->
  bit_unset (p_creation_bits (w_pool w)) mask = negb (Z.testbit (p_creation_bits (w_pool w)) bit).
Proof.
  intros I M. destruct (iv_cbits _ I) as [X|[X|[X|X]]]; rewrite X in *;
  destruct M as [(-> & ->)|(-> & ->)]; reflexivity.
Qed.

Theorem C17_creation_fee_can_be_claimed : forall w to s, reachable w ->
  (0 < c_pool_creation_fee (w_config w) - creation_fee_protocol (w_config w) ->
   Z.testbit (p_creation_bits (w_pool w)) 1 = false ->
     is_ok (exec w (OPartnerCreationFee (c_fee_claimer (w_config w)) to)) = true)
  /\ (permitted w s 0 -> is_ok (exec w (OProtocolCreationFee s)) = true).
Proof.
  intros w to s R. pose proof (reachable_inv _ R) as I.
  pose proof (created_cfg_ok _ (iv_created _ I)) as K.
  destruct (creation_live _ K) as (S & B).
  pose proof (iv_lamports _ I) as L. unfold lamports_owed in L. cbv zeta in L.
  split.
  - intros A F. unfold exec, claim_partner_creation_fee. cbn [args_ok require bind].
    unfold check_partner. rewrite require_true by lia. cbn [bind]. cbv zeta. rewrite S. cbn [bind snd].
    rewrite require_true by lia. cbn [bind].
    rewrite (cbit w 1) by auto. rewrite F in *. cbn [negb require bind].
    unfold pay_lamports. rewrite require_true; [reflexivity|]. simpl.
    assert (0 <= unless (Z.testbit (p_creation_bits (w_pool w)) 0) (creation_fee_protocol (w_config w)))
      by (apply unless_nonneg; lia).
    unfold unless at 2 in L. lia.
  - intros PE. unfold exec, claim_protocol_creation_fee. cbn [args_ok require bind].
    unfold CLAIM_PROTOCOL_FEE. rewrite (proj2 (check_operator_ok w s 0 ltac:(lia)) PE). cbn [bind]. cbv zeta.
    rewrite (cbit w 0) by auto.
    assert (U : 0 <= unless (Z.testbit (p_creation_bits (w_pool w)) 1)
       (c_pool_creation_fee (w_config w) - creation_fee_protocol (w_config w)))
      by (apply unless_nonneg; lia).
    destruct (Z.testbit (p_creation_bits (w_pool w)) 0); cbn [negb].
    + cbn [bind]. rewrite (iv_legacy _ I). change (negb (bit_unset 0 LEGACY_CHARGED_MASK)) with false.
      cbn [andb bind]. reflexivity.
    + rewrite S. cbn [bind fst].
      change (p_legacy_bits (set_creation_bits (w_pool w) ?x)) with (p_legacy_bits (w_pool w)).
      rewrite (iv_legacy _ I). change (negb (bit_unset 0 LEGACY_CHARGED_MASK)) with false.
      cbn [andb bind]. destruct (0 <? _); [|reflexivity].
      unfold pay_lamports. rewrite require_true; [reflexivity|]. simpl.
      unfold unless at 1 in L. lia.
Qed.

(** Every one of these is due at some point of the history of pool A, and paid. *)
Example C17_case :
  all_ok wA (histA1 ++ histA2 ++ histA3) = true
  /\ (let w := run wA (histA1 ++ histA2) in
      0 < p_partner_quote (w_pool w) /\ 0 < p_creator_quote (w_pool w)
      /\ 0 < p_protocol_quote (w_pool w)
      /\ p_partner_surplus (w_pool w) = 0 /\ 0 < migration_fee_partner cfgA).
Proof. vm_compute. repeat split; reflexivity. Qed.

Print Assumptions C16_never_insufficient_for_migration.
Print Assumptions C16_base_left_at_completion.
Print Assumptions C17_solvent.
Print Assumptions C17_solvent_while_trading.
Print Assumptions C17_swaps_are_funded.
Print Assumptions C17_partner_can_claim.
Print Assumptions C17_creator_can_claim.
Print Assumptions C17_partner_can_withdraw_surplus.
Print Assumptions C17_creator_can_withdraw_surplus.
Print Assumptions C17_protocol_can_claim.
Print Assumptions C17_migration_fee_can_be_withdrawn.
Print Assumptions C17_vesting_can_be_locked.
Print Assumptions C17_leftover_can_be_withdrawn.
Print Assumptions C17_creation_fee_can_be_claimed.
