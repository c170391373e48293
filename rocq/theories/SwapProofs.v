(** * Swap results: fees, conservation, and the move along the curve. *)
From Coq Require Import ZArith QArith List Bool Lia ZifyBool.
From Verif Require Import Base MathModel CurveModel FeeModel ConfigModel PoolModel TxModel
  SystemModel Spec Lib CurveProofs CurveLoops Potential CalcProofs ConfigProofs FeeProofs.
Import ListNotations.
Open Scope Z_scope.
#[local] Arguments Z.pow : simpl never.

Lemma created_fees_ok c : created c -> fees_ok (c_fees c).
Proof.
  intros H. apply created_inv in H.
  destruct H as (q & sup & spl & now & mig & sb & ba & fl & pre & post & qm & fc & lr & qa & bps
                 & T & _ & B).
  pose proof (cb_valid _ _ _ _ _ _ _ _ _ _ _ _ _ _ _ _ B) as V.
  apply validate_inv in V. destruct V as (_ & V).
  destruct (va_base _ _ _ V) as (act & _ & VB).
  rewrite (cb_eq _ _ _ _ _ _ _ _ _ _ _ _ _ _ _ _ B). simpl. unfold to_pool_fees_config.
  eapply base_fee_validate_ok; eauto.
  - exact (pt_base _ T).
  - pose proof (pt_dyn _ T) as D. destruct (q_dynamic_fee q) as [df|]; unfold dyn_typed in *; simpl;
    unfold u8ok, u16ok, u32ok, u128ok, U8_MAX, U16_MAX, U32_MAX, U128_MAX in *; intuition lia.
Qed.

Lemma num_included_bounds c p cur amount d el n :
  fees_ok (c_fees c) -> 0 <= amount -> num_included c p cur amount d el = Ok n ->
  0 <= n <= MAX_FEE_NUMERATOR.
Proof.
  intros [TB TD TC (mn & M & M2) _] Ha H. unfold num_included in H. destruct el.
  - rewrite M in H. minv. unfold MIN_FEE_NUMERATOR in *. lia.
  - unfold total_num_included in H. apply bind_ok in H. destruct H as (b & B & H).
    apply base_num_included_nonneg in B; auto.
    apply total_num_bounds in H; auto. destruct H as (v & _ & _ & _ & H). auto.
Qed.

Lemma num_excluded_bounds c p cur amount d el n :
  fees_ok (c_fees c) -> num_excluded c p cur amount d el = Ok n ->
  0 <= n <= MAX_FEE_NUMERATOR.
Proof.
  intros [TB TD TC (mn & M & M2) _] H. unfold num_excluded in H. destruct el.
  - rewrite M in H. minv. unfold MIN_FEE_NUMERATOR in *. lia.
  - unfold total_num_excluded in H. apply bind_ok in H. destruct H as (b & B & H).
    apply base_num_excluded_nonneg in B; auto.
    apply total_num_bounds in H; auto. destruct H as (v & _ & _ & _ & H). auto.
Qed.

(** What every successful swap computation satisfies, whatever its mode. [num] is the fee
    numerator that was charged, [fee] the whole fee, [gross] the amount leaving the reserve. *)
Record swap_facts (c : config) (price : Z) (fm : fee_mode) (d : direction)
    (r : swap_result) (num fee gross : Z) : Prop := {
  sf_num : 0 <= num <= MAX_FEE_NUMERATOR;
  sf_fee : fee = cdiv ((if fm_on_input fm then sr_included r else gross) * num) FEE_DENOMINATOR;
  sf_fee_le : fee <= (if fm_on_input fm then sr_included r else gross);
  sf_fee_nonneg : 0 <= fee;
  sf_parts : fee_parts fee (fm_referral fm) (sr_trading r) (sr_protocol r) (sr_referral r);
  sf_in : sr_included r = sr_excluded r + (if fm_on_input fm then fee else 0);
  sf_out : gross = sr_output r + (if fm_on_input fm then 0 else fee);
  sf_moves : moves (c_start c) (curve_points c) price (sr_price r)
               (fi_dq d (sr_excluded r) gross) (fi_db d (sr_excluded r) gross);
  sf_price : c_start c <= sr_price r <= c_mig_price c;
  sf_dir : price_moves d price (sr_price r);
  sf_excl : 0 <= sr_excluded r;
  sf_gross : 0 <= gross;
  sf_out_nonneg : 0 <= sr_output r;
  sf_left : 0 <= sr_left r
}.

Lemma fee_le_gross x num : 0 <= x -> 0 <= num <= MAX_FEE_NUMERATOR ->
  0 <= cdiv (x * num) FEE_DENOMINATOR <= x.
Proof.
  intros. unfold MAX_FEE_NUMERATOR, FEE_DENOMINATOR in *. split.
  - apply cdiv_nonneg; nia.
  - apply cdiv_le; nia.
Qed.

Lemma exact_in_facts c p amount fm d cur el r :
  cfg_ok c -> fees_ok (c_fees c) -> c_start c <= p_price p <= c_mig_price c -> 0 <= amount ->
  swap_exact_in c p amount fm d cur el = Ok r ->
  exists num fee gross, num_included c p cur amount d el = Ok num /\
    swap_facts c (p_price p) fm d r num fee gross
    /\ sr_included r = amount /\ sr_left r = 0.
Proof.
  intros K F Hp Ha H. unfold swap_exact_in in H.
  apply bind_ok in H. destruct H as (num & N & H).
  pose proof (num_included_bounds _ _ _ _ _ _ _ F Ha N) as NB.
  apply bind_ok in H. destruct H as (f & Ff & H).
  apply bind_ok in H. destruct H as (s & S & H).
  apply bind_ok in H. destruct H as (u & L & H). apply require_ok in L.
  apply bind_ok in H. destruct H as (g & G & H). apply Ok_inj in H. subst r. simpl.
  destruct (fm_on_input fm) eqn:OI.
  - apply fee_on_amount_ok in Ff. destruct Ff as (fee & FE & FL & FA & FP).
    apply Ok_inj in G. subst g. simpl.
    pose proof (fee_le_gross amount num Ha NB) as FB. rewrite <- FE in FB.
    eapply fi_moves in S; eauto using ok_curve; [|lia].
    destruct S as (M & P1 & P2 & P3 & P4).
    exists num, fee, (fi_out s). split; auto. split; [|split; auto; lia].
    constructor; simpl; rewrite ?OI; auto; try lia; try congruence.
    replace (foa_amount f) with (foa_amount f - fi_left s) by lia. exact M.
  - apply Ok_inj in Ff. subst f. simpl in *.
    eapply fi_moves in S; eauto using ok_curve.
    destruct S as (M & P1 & P2 & P3 & P4).
    apply fee_on_amount_ok in G. destruct G as (fee & FE & FL & FA & FP).
    pose proof (fee_le_gross (fi_out s) num P4 NB) as FB. rewrite <- FE in FB.
    exists num, fee, (fi_out s). split; auto. split; [|split; auto; lia].
    constructor; simpl; rewrite ?OI; auto; try lia; try congruence.
    replace amount with (amount - fi_left s) at 1 2 by lia. exact M.
Qed.

Lemma exact_out_facts c p amount fm d cur el r :
  cfg_ok c -> fees_ok (c_fees c) -> c_start c <= p_price p <= c_mig_price c -> 0 <= amount ->
  swap_exact_out c p amount fm d cur el = Ok r ->
  exists num fee gross,
    num_excluded c p cur (if fm_on_input fm then sr_excluded r else amount) d el = Ok num /\
    swap_facts c (p_price p) fm d r num fee gross
    /\ sr_output r = amount /\ sr_left r = 0.
Proof.
  intros K F Hp Ha H. unfold swap_exact_out in H.
  apply bind_ok in H. destruct H as ([[[gross tr] pr] rf] & A & H).
  apply bind_ok in H. destruct H as (s & S & H).
  apply bind_ok in H. destruct H as (u & L & H). apply require_ok in L.
  apply bind_ok in H. destruct H as ([[[incl tr'] pr'] rf'] & B & H).
  apply Ok_inj in H. subst r. simpl.
  destruct (fm_on_input fm) eqn:OI.
  - apply Ok_inj in A. inversion A; subst; clear A.
    eapply fo_moves in S; eauto using ok_curve; [|lia].
    destruct S as (M & P1 & P2 & P3).
    apply bind_ok in B. destruct B as (num & N & B).
    pose proof (num_excluded_bounds _ _ _ _ _ _ _ F N) as NB.
    apply bind_ok in B. destruct B as ([i fee] & I & B).
    apply included_fee_ok in I; try lia. destruct I as (_ & I1 & I2 & I3 & _ & _).
    apply bind_ok in B. destruct B as ([[t1 t2] t3] & SP & B).
    apply split_fees_ok in SP. apply Ok_inj in B. inversion B; subst i t1 t2 t3; clear B.
    exists num, fee, gross. split; auto. split; [|split; auto; lia].
    constructor; simpl; rewrite ?OI; auto; try lia; try congruence.
  - apply Ok_inj in B. inversion B; subst; clear B.
    apply bind_ok in A. destruct A as (num & N & A).
    pose proof (num_excluded_bounds _ _ _ _ _ _ _ F N) as NB.
    apply bind_ok in A. destruct A as ([i fee] & I & A).
    apply included_fee_ok in I; try lia. destruct I as (_ & I1 & I2 & I3 & _ & _).
    apply bind_ok in A. destruct A as ([[t1 t2] t3] & SP & A).
    apply split_fees_ok in SP. apply Ok_inj in A. inversion A; subst i t1 t2 t3; clear A.
    eapply fo_moves in S; eauto using ok_curve; [|lia|lia].
    destruct S as (M & P1 & P2 & P3).
    exists num, fee, gross. split; auto. split; [|split; auto; lia].
    constructor; simpl; rewrite ?OI; auto; try lia; try congruence.
Qed.

Lemma partial_facts c p amount fm d cur el r :
  cfg_ok c -> fees_ok (c_fees c) -> c_start c <= p_price p <= c_mig_price c -> 0 <= amount ->
  swap_partial c p amount fm d cur el = Ok r ->
  exists num0 num fee gross, num_included c p cur amount d el = Ok num0
    /\ swap_facts c (p_price p) fm d r num fee gross
    /\ (sr_left r = 0 -> num = num0 /\ sr_included r = amount)
    /\ (0 < sr_left r ->
          (fm_on_input fm = true -> num_excluded c p cur (sr_excluded r) d el = Ok num)
          /\ (fm_on_input fm = false -> num = num0 /\ sr_included r + sr_left r = amount))
    /\ sr_excluded r + sr_left r =
         (if fm_on_input fm then amount - cdiv (amount * num0) FEE_DENOMINATOR else amount).
Proof.
  intros K F Hp Ha H. unfold swap_partial in H.
  apply bind_ok in H. destruct H as (num & N & H).
  pose proof (num_included_bounds _ _ _ _ _ _ _ F Ha N) as NB.
  apply bind_ok in H. destruct H as (f & Ff & H).
  apply bind_ok in H. destruct H as (s & S & H).
  apply bind_ok in H. destruct H as ([[[[incl act] tr] pr] rf] & A & H).
  apply bind_ok in H. destruct H as (g & G & H). apply Ok_inj in H. subst r. simpl.
  destruct (fm_on_input fm) eqn:OI.
  - apply fee_on_amount_ok in Ff. destruct Ff as (fee & FE & FL & FA & FP).
    apply Ok_inj in G. subst g. simpl.
    pose proof (fee_le_gross amount num Ha NB) as FB. rewrite <- FE in FB.
    eapply fi_moves in S; eauto using ok_curve; [|lia].
    destruct S as (M & P1 & P2 & P3 & P4).
    destruct (negb (fi_left s =? 0)) eqn:NL.
    + apply bind_ok in A. destruct A as (actual & AC & A).
      apply bind_ok in A. destruct A as (num' & N' & A).
      pose proof (num_excluded_bounds _ _ _ _ _ _ _ F N') as NB'.
      apply bind_ok in A. destruct A as ([i fee'] & I & A). apply ssub_ok in AC.
      destruct AC as (AC & _).
      apply included_fee_ok in I; try lia. destruct I as (_ & I1 & I2 & I3 & _ & _).
      apply bind_ok in A. destruct A as ([[t1 t2] t3] & SP & A).
      apply split_fees_ok in SP. apply Ok_inj in A. inversion A; subst i act t1 t2 t3; clear A.
      exists num, num', fee', (fi_out s). split; auto.
      split; [|split; [lia|split; [split; [auto|discriminate]|lia]]].
      constructor; simpl; rewrite ?OI; auto; try lia; try congruence.
    + apply Ok_inj in A. inversion A; subst incl act tr pr rf; clear A.
      exists num, num, fee, (fi_out s). split; auto.
      split; [|split; [auto|split; [lia|lia]]].
      constructor; simpl; rewrite ?OI; auto; try lia; try congruence.
      replace (foa_amount f) with (foa_amount f - fi_left s) by lia. exact M.
  - apply Ok_inj in Ff. subst f. simpl in *.
    eapply fi_moves in S; eauto using ok_curve.
    destruct S as (M & P1 & P2 & P3 & P4).
    apply fee_on_amount_ok in G. destruct G as (fee & FE & FL & FA & FP).
    pose proof (fee_le_gross (fi_out s) num P4 NB) as FB. rewrite <- FE in FB.
    assert (EA : incl = amount - fi_left s /\ act = amount - fi_left s).
    { destruct (negb (fi_left s =? 0)) eqn:NL.
      - apply bind_ok in A. destruct A as (actual & AC & A). apply ssub_ok in AC.
        apply Ok_inj in A. inversion A. lia.
      - apply Ok_inj in A. inversion A. lia. }
    destruct EA as (EA1 & EA2).
    exists num, num, fee, (fi_out s). split; auto.
    split; [|split; [intros; split; [auto|lia]|split; [intros; split; [discriminate|split; [auto|lia]]|lia]]].
    constructor; simpl; rewrite ?OI; auto; try lia; try congruence.
Qed.

(** All modes; and where the numerator comes from. *)
Definition num_from (c : config) (p : pool) (cur : Z) (d : direction) (el : bool) (num : Z) : Prop :=
  exists x, 0 <= x /\ (num_included c p cur x d el = Ok num \/ num_excluded c p cur x d el = Ok num).

Lemma process_swap_facts c p mode a0 a1 fm d cur el r :
  cfg_ok c -> fees_ok (c_fees c) -> c_start c <= p_price p <= c_mig_price c -> 0 <= a0 ->
  process_swap c p mode a0 a1 fm d cur el = Ok r ->
  exists num fee gross, swap_facts c (p_price p) fm d r num fee gross
    /\ num_from c p cur d el num
    /\ (mode = 0 -> sr_included r = a0 /\ num_included c p cur a0 d el = Ok num).
Proof.
  intros K F Hp Ha H. unfold process_swap in H.
  destruct (mode =? 0) eqn:M0; [|destruct (mode =? 1) eqn:M1; [|destruct (mode =? 2); [|discriminate]]];
  apply bind_ok in H; destruct H as (r' & R & H);
  apply bind_ok in H; destruct H as (u & _ & H); apply Ok_inj in H; subst r'.
  - apply exact_in_facts in R; auto. destruct R as (num & fee & gross & N & R & I & _).
    exists num, fee, gross. split; [exact R|]. split; [exists a0; auto|auto].
  - apply partial_facts in R; auto. destruct R as (n0 & num & fee & gross & N & R & A & B & _).
    exists num, fee, gross. split; [exact R|]. split; [|intros; lia].
    pose proof (sf_left _ _ _ _ _ _ _ _ R) as L. pose proof (sf_excl _ _ _ _ _ _ _ _ R) as X.
    destruct (Z.eq_dec (sr_left r) 0) as [Z0|NZ].
    + destruct (A Z0) as (-> & _). exists a0. auto.
    + destruct B as (B1 & B2); [lia|]. destruct (fm_on_input fm).
      * exists (sr_excluded r). auto.
      * destruct (B2 eq_refl) as (-> & _). exists a0. auto.
  - apply exact_out_facts in R; auto. destruct R as (num & fee & gross & N & R & _).
    exists num, fee, gross. split; [exact R|]. split; [|intros; lia].
    pose proof (sf_excl _ _ _ _ _ _ _ _ R) as X.
    destruct (fm_on_input fm); [exists (sr_excluded r)|exists a0]; auto.
Qed.

(** The volatility tracker before the fee is computed, and after the swap. *)
Definition pre_tracker (c : config) (p : pool) (now : Z) (vt : tracker) : Prop :=
  let df := pf_dyn (c_fees c) in
  if dyn_enabled df then update_references df (p_tracker p) (p_price p) now = Ok vt
  else vt = p_tracker p.
Definition post_tracker (c : config) (vt : tracker) (old new now : Z) (vt' : tracker) : Prop :=
  let df := pf_dyn (c_fees c) in
  if dyn_enabled df then
    exists u moved, update_volatility_accumulator df vt new = Ok u
      /\ delta_bin_id (df_bin_step_u128 df) old new = Ok moved
      /\ vt' = mkTracker (if 0 <? moved then now else vt_last u) (vt_price_ref u) (vt_va u) (vt_vref u)
  else vt' = vt.

Lemma pre_swap_tracker c p now p1 :
  update_pre_swap c p now = Ok p1 -> exists vt, p1 = set_tracker p vt /\ pre_tracker c p now vt.
Proof.
  unfold update_pre_swap, pre_tracker. cbv zeta. intros H. destruct (dyn_enabled (pf_dyn (c_fees c))).
  - apply bind_ok in H. destruct H as (vt & V & H). apply Ok_inj in H. subst p1. exists vt. auto.
  - apply Ok_inj in H. subst p1. exists (p_tracker p). split; [destruct p; reflexivity|reflexivity].
Qed.

Lemma apply_tracker c p r fm d now p' :
  apply_swap_result c p r fm d now = Ok p' ->
  post_tracker c (p_tracker p) (p_price p) (sr_price r) now (p_tracker p').
Proof.
  intros H. unfold apply_swap_result in H. cbv zeta in H.
  apply bind_ok in H. destruct H as (p1 & F & H).
  apply bind_ok in H. destruct H as (out & _ & H).
  apply bind_ok in H. destruct H as (p2 & R & H).
  apply bind_ok in H. destruct H as (p3 & U & H). apply Ok_inj in H. subst p'.
  assert (T : p_tracker p2 = p_tracker p /\ p_price p2 = sr_price r).
  { unfold apply_reserves in R. unfold apply_fees in F. apply bind_ok in F. destruct F as ([pf cf] & SP & F).
    destruct (fm_on_base fm); destruct d; minv; split; reflexivity. }
  destruct T as (T1 & T2). unfold update_post_swap in U. unfold post_tracker. cbv zeta.
  rewrite T1, T2 in U. destruct (dyn_enabled (pf_dyn (c_fees c))).
  - apply bind_ok in U. destruct U as (u & U1 & U). apply bind_ok in U. destruct U as (mv & U2 & U).
    exists u, mv. split; [exact U1|]. split; [exact U2|].
    destruct (0 <? mv); apply Ok_inj in U; subst p3; simpl; [reflexivity|destruct u; reflexivity].
  - apply Ok_inj in U. subst p3. simpl. exact T1.
Qed.

(** ** Applying a swap to the pool *)

(** Fields that no swap touches (completion aside). *)
Record same_rest (p p' : pool) : Prop := {
  sm_creator : p_creator p' = p_creator p;
  sm_activation : p_activation p' = p_activation p;
  sm_migrated : p_is_migrated p' = p_is_migrated p;
  sm_psur : p_partner_surplus p' = p_partner_surplus p;
  sm_prsur : p_protocol_surplus p' = p_protocol_surplus p;
  sm_csur : p_creator_surplus p' = p_creator_surplus p;
  sm_leftover : p_leftover p' = p_leftover p;
  sm_mfs : p_mig_fee_status p' = p_mig_fee_status p;
  sm_legacy : p_legacy_bits p' = p_legacy_bits p;
  sm_cbits : p_creation_bits p' = p_creation_bits p;
  sm_mbps : p_mig_fee_bps p' = p_mig_fee_bps p;
  sm_mbf : p_mig_base_fee p' = p_mig_base_fee p;
  sm_mqf : p_mig_quote_fee p' = p_mig_quote_fee p
}.

Record applied (c : config) (p p' : pool) (r : swap_result) (fm : fee_mode) (d : direction)
    (pf cf gross : Z) : Prop := {
  ap_split : split_partner_and_creator_fee c (sr_trading r) = Ok (pf, cf);
  ap_price : p_price p' = sr_price r;
  ap_swap : p_has_swap p' = 1;
  ap_base : p_base p' = p_base p + fi_db d (sr_excluded r) gross;
  ap_quote : p_quote p' = p_quote p + fi_dq d (sr_excluded r) gross;
  ap_base_nonneg : d = QuoteToBase -> 0 <= p_base p';
  ap_quote_nonneg : d = BaseToQuote -> 0 <= p_quote p';
  ap_base_max : d = BaseToQuote -> p_base p' <= U64_MAX;
  ap_quote_max : d = QuoteToBase -> p_quote p' <= U64_MAX;
  ap_pb : p_partner_base p' = p_partner_base p + (if fm_on_base fm then pf else 0);
  ap_pq : p_partner_quote p' = p_partner_quote p + (if fm_on_base fm then 0 else pf);
  ap_cb : p_creator_base p' = p_creator_base p + (if fm_on_base fm then cf else 0);
  ap_cq : p_creator_quote p' = p_creator_quote p + (if fm_on_base fm then 0 else cf);
  ap_prb : p_protocol_base p' = p_protocol_base p + (if fm_on_base fm then sr_protocol r else 0);
  ap_prq : p_protocol_quote p' = p_protocol_quote p + (if fm_on_base fm then 0 else sr_protocol r);
  ap_mpb : p_m_protocol_base p' = p_m_protocol_base p + (if fm_on_base fm then sr_protocol r else 0);
  ap_mpq : p_m_protocol_quote p' = p_m_protocol_quote p + (if fm_on_base fm then 0 else sr_protocol r);
  ap_mtb : p_m_trading_base p' = p_m_trading_base p + (if fm_on_base fm then sr_trading r else 0);
  ap_mtq : p_m_trading_quote p' = p_m_trading_quote p + (if fm_on_base fm then 0 else sr_trading r);
  ap_rest : same_rest p p'
}.

Lemma split_pc_ok c fee pf cf :
  0 <= fee -> 0 <= c_creator_trading_fee_pct c <= 100 ->
  split_partner_and_creator_fee c fee = Ok (pf, cf) ->
  cf = fee * c_creator_trading_fee_pct c / 100 /\ pf + cf = fee /\ 0 <= pf /\ 0 <= cf.
Proof.
  intros Hf Hc H. unfold split_partner_and_creator_fee in H.
  destruct (c_creator_trading_fee_pct c =? 0) eqn:C.
  - apply Ok_inj in H. apply pair_inj in H. destruct H as (<- & <-).
    replace (c_creator_trading_fee_pct c) with 0 by lia. rewrite Z.mul_0_r, Zdiv_0_l. lia.
  - apply bind_ok in H. destruct H as (cr & R & H). apply mul_div_cast_down in R.
    destruct R as (-> & _). apply bind_ok in H. destruct H as (pa & P & H).
    apply ssub_ok in P. apply Ok_inj in H. apply pair_inj in H. destruct H as (<- & <-).
    assert (0 <= fee * c_creator_trading_fee_pct c / 100) by (apply div_nonneg; nia). lia.
Qed.

Lemma apply_ok c p r fm d now p' gross fee :
  apply_swap_result c p r fm d now = Ok p' ->
  0 <= fee -> fee_parts fee (fm_referral fm) (sr_trading r) (sr_protocol r) (sr_referral r) ->
  gross = sr_output r + (if fm_on_input fm then 0 else fee) ->
  exists pf cf, applied c p p' r fm d pf cf gross /\ p_progress p' = p_progress p
     /\ p_finish p' = p_finish p.
Proof.
  intros H Hf HP HG. apply parts_sum in HP; auto. destruct HP as (HP & _).
  unfold apply_swap_result in H. cbv zeta in H.
  apply bind_ok in H. destruct H as (p1 & F & H).
  apply bind_ok in H. destruct H as (out & O & H).
  apply bind_ok in H. destruct H as (p2 & R & H).
  apply bind_ok in H. destruct H as (p3 & U & H). apply Ok_inj in H. subst p'.
  assert (OE : out = gross).
  { unfold actual_output in O. destruct (fm_on_input fm); minv; lia. }
  subst out. clear O.
  assert (UE : exists vt, p3 = set_tracker p2 vt).
  { unfold update_post_swap in U. destruct (dyn_enabled (pf_dyn (c_fees c))).
    - minvc; eexists; reflexivity.
    - minv. exists (p_tracker p3). destruct p3; reflexivity. }
  destruct UE as (vt & ->).
  unfold apply_fees in F. apply bind_ok in F. destruct F as ([pf cf] & SP & F).
  exists pf, cf. unfold apply_reserves in R.
  destruct (fm_on_base fm) eqn:OB; destruct d; minv; simpl in *;
  (split; [constructor; simpl; rewrite ?OB; auto; try lia; try discriminate; constructor; reflexivity
          | auto]).
Qed.

Lemma pre_swap_ok c p now p1 :
  update_pre_swap c p now = Ok p1 -> exists vt, p1 = set_tracker p vt.
Proof.
  unfold update_pre_swap. intros H. destruct (dyn_enabled (pf_dyn (c_fees c))); minv.
  - eexists; reflexivity.
  - exists (p_tracker p1). destruct p1; reflexivity.
Qed.

(** ** The whole instruction *)

(** The three token movements of a swap, in order. *)
Definition in_token (d : direction) : token := match d with BaseToQuote => TBase | QuoteToBase => TQuote end.
Definition out_token (d : direction) : token := match d with BaseToQuote => TQuote | QuoteToBase => TBase end.
Definition fee_token (fm : fee_mode) : token := if fm_on_base fm then TBase else TQuote.
Definition swap_log (a : swap_args) (fm : fee_mode) (r : swap_result) : list transfer :=
  [ mkTransfer (in_token (sa_dir a)) (PKey (sa_user a)) PPool (sr_included r);
    mkTransfer (out_token (sa_dir a)) PPool (PKey (sa_user a)) (sr_output r) ]
  ++ match sa_referral a with
     | Some k => [mkTransfer (fee_token fm) PPool (PKey k) (sr_referral r)]
     | None => []
     end.

Definition base_in (d : direction) (x : Z) : Z := match d with BaseToQuote => x | QuoteToBase => 0 end.
Definition quote_in (d : direction) (x : Z) : Z := match d with BaseToQuote => 0 | QuoteToBase => x end.

Record swap_effect (w w' : world) (a : swap_args) (fm : fee_mode) (r : swap_result)
    (num fee gross pf cf cur : Z) : Prop := {
  se_point : current_point (w_config w) (sa_slot a) (sa_now a) = Ok cur;
  se_rate : rate_limit_check (w_config w) (w_pool w) (w_key w) cur (sa_dir a) (sa_view a) = Ok tt;
  se_open : p_quote (w_pool w) < c_threshold (w_config w);
  se_fm : get_fee_mode (c_collect_fee_mode (w_config w)) (sa_dir a) (is_some (sa_referral a)) = Ok fm;
  se_facts : swap_facts (w_config w) (p_price (w_pool w)) fm (sa_dir a) r num fee gross;
  se_pool : exists p2, applied (w_config w) (w_pool w) p2 r fm (sa_dir a) pf cf gross
     /\ p_progress p2 = p_progress (w_pool w) /\ p_finish p2 = p_finish (w_pool w)
     /\ ((p_quote p2 < c_threshold (w_config w) /\ w_pool w' = p2)
         \/ (c_threshold (w_config w) <= p_quote p2
             /\ (exists t fees, lv_total (c_vesting (w_config w)) = Ok t
                  /\ get_protocol_and_trading_base_fee p2 = Ok fees
                  /\ c_base_threshold (w_config w) + fees + t <= w_bvault w')
             /\ w_pool w' = set_progress (set_finish p2 (sa_now a))
                   (if has_vesting (c_vesting (w_config w)) then PostBondingCurve
                    else LockedVesting)));
  se_bvault : w_bvault w' = w_bvault w + base_in (sa_dir a) (sr_included r)
       - quote_in (sa_dir a) (sr_output r)
       - (match sa_referral a with Some _ => if fm_on_base fm then sr_referral r else 0 | None => 0 end);
  se_qvault : w_qvault w' = w_qvault w + quote_in (sa_dir a) (sr_included r)
       - base_in (sa_dir a) (sr_output r)
       - (match sa_referral a with Some _ => if fm_on_base fm then 0 else sr_referral r | None => 0 end);
  se_log : w_log w' = w_log w ++ swap_log a fm r;
  se_same : w' = set_w_log (set_w_qvault (set_w_bvault (set_w_pool w (w_pool w')) (w_bvault w'))
                            (w_qvault w')) (w_log w');
  se_num : exists vt, pre_tracker (w_config w) (w_pool w) (sa_now a) vt
    /\ post_tracker (w_config w) vt (p_price (w_pool w)) (sr_price r) (sa_now a) (p_tracker (w_pool w'))
    /\ (let el := first_swap_eligible (w_config w) (w_pool w) (w_key w) (is_some (sa_referral a))
                    (sa_view a) in
        num_from (w_config w) (set_tracker (w_pool w) vt) cur (sa_dir a) el num
        /\ (sa_mode a = 0 -> sr_included r = sa_amount0 a
             /\ num_included (w_config w) (set_tracker (w_pool w) vt) cur (sa_amount0 a) (sa_dir a) el = Ok num))
}.

Lemma world_eta (w w' : world) :
  w_key w' = w_key w -> w_config w' = w_config w -> w_lamports w' = w_lamports w ->
  w_supply w' = w_supply w -> w_mint_auth w' = w_mint_auth w ->
  w_update_auth w' = w_update_auth w -> w_meta w' = w_meta w -> w_lp w' = w_lp w ->
  w_escrow w' = w_escrow w -> w_positions w' = w_positions w -> w_admins w' = w_admins w ->
  w_operators w' = w_operators w ->
  w' = set_w_log (set_w_qvault (set_w_bvault (set_w_pool w (w_pool w')) (w_bvault w'))
                            (w_qvault w')) (w_log w').
Proof. destruct w, w'; simpl; intros; subst; reflexivity. Qed.

Lemma swap_transfers_ok w a fm r w' :
  swap_transfers w a fm r = Ok w' ->
  w_bvault w' = w_bvault w + base_in (sa_dir a) (sr_included r)
       - quote_in (sa_dir a) (sr_output r)
       - (match sa_referral a with Some _ => if fm_on_base fm then sr_referral r else 0 | None => 0 end)
  /\ w_qvault w' = w_qvault w + quote_in (sa_dir a) (sr_included r)
       - base_in (sa_dir a) (sr_output r)
       - (match sa_referral a with Some _ => if fm_on_base fm then 0 else sr_referral r | None => 0 end)
  /\ w_log w' = w_log w ++ swap_log a fm r
  /\ w_pool w' = w_pool w
  /\ w' = set_w_log (set_w_qvault (set_w_bvault (set_w_pool w (w_pool w')) (w_bvault w'))
                            (w_qvault w')) (w_log w').
Proof.
  unfold swap_transfers, swap_log, fee_token, in_token, out_token, base_in, quote_in.
  intros H. apply bind_ok in H. destruct H as (w1 & H1 & H).
  unfold recv_base, recv_quote, pay_base, pay_quote, log in *.
  destruct (sa_dir a); destruct (sa_referral a); try destruct (fm_on_base fm); minv; simpl;
  (split; [lia|]; split; [lia|]; split; [rewrite <- ?app_assoc; reflexivity|];
   split; [reflexivity|]; apply world_eta; reflexivity).
Qed.

Lemma swap_full_effect w a w' r :
  cfg_ok (w_config w) -> fees_ok (c_fees (w_config w)) ->
  c_start (w_config w) <= p_price (w_pool w) <= c_mig_price (w_config w) ->
  0 <= sa_amount0 a ->
  swap_full w a = Ok (w', r) ->
  exists fm num fee gross pf cf cur p1,
    swap_effect w w' a fm r num fee gross pf cf cur
    /\ update_pre_swap (w_config w) (w_pool w) (sa_now a) = Ok p1
    /\ process_swap (w_config w) p1 (sa_mode a) (sa_amount0 a) (sa_amount1 a) fm (sa_dir a) cur
         (first_swap_eligible (w_config w) (w_pool w) (w_key w) (is_some (sa_referral a))
            (sa_view a)) = Ok r.
Proof.
  intros K F Hp Ha H. unfold swap_full in H. cbv zeta in H.
  apply bind_ok in H. destruct H as (u0 & Z0 & H).
  apply bind_ok in H. destruct H as (cur & CP & H).
  apply bind_ok in H. destruct H as ([] & RL & H).
  apply bind_ok in H. destruct H as (u2 & OP & H). apply require_ok in OP.
  apply bind_ok in H. destruct H as (p1 & PRE & H).
  apply bind_ok in H. destruct H as (fm & FM & H).
  apply bind_ok in H. destruct H as (r' & PS & H).
  apply bind_ok in H. destruct H as (p2 & AP & H).
  apply bind_ok in H. destruct H as (w1 & TR & H).
  apply bind_ok in H. destruct H as (w2 & FI & H).
  apply Ok_inj in H. apply pair_inj in H. destruct H as (-> & ->).
  pose proof (pre_swap_tracker _ _ _ _ PRE) as (vt & EP1 & PT).
  assert (PP : p_price p1 = p_price (w_pool w)) by (rewrite EP1; reflexivity).
  pose proof PS as PS'.
  apply process_swap_facts in PS'; auto; [|rewrite PP; auto].
  destruct PS' as (num & fee & gross & SF & NF & NI). rewrite PP in SF.
  pose proof (apply_tracker _ _ _ _ _ _ _ AP) as AT.
  pose proof (apply_ok _ _ _ _ _ _ _ gross fee AP (sf_fee_nonneg _ _ _ _ _ _ _ _ SF)
               (sf_parts _ _ _ _ _ _ _ _ SF) (sf_out _ _ _ _ _ _ _ _ SF))
    as (pf & cf & APP & PR & FN).
  assert (APP' : applied (w_config w) (w_pool w) p2 r fm (sa_dir a) pf cf gross).
  { rewrite EP1 in APP. destruct APP. constructor; auto. 
    match goal with X : same_rest _ _ |- _ => destruct X; constructor; auto end. }
  apply swap_transfers_ok in TR. destruct TR as (B & Qv & L & PO & W1). simpl in B, Qv, L, PO.
  exists fm, num, fee, gross, pf, cf, cur, p1. split; [|split; auto].
  assert (FI' : exists p2', w_pool w' = p2' /\ w' = set_w_pool w1 p2' /\
     ((p_quote p2 < c_threshold (w_config w) /\ p2' = p2)
         \/ (c_threshold (w_config w) <= p_quote p2
             /\ (exists t fees, lv_total (c_vesting (w_config w)) = Ok t
                  /\ get_protocol_and_trading_base_fee p2 = Ok fees
                  /\ c_base_threshold (w_config w) + fees + t <= w_bvault w')
             /\ p2' = set_progress (set_finish p2 (sa_now a))
                   (if has_vesting (c_vesting (w_config w)) then PostBondingCurve
                    else LockedVesting)))).
  { assert (CW : w_config w1 = w_config w) by (rewrite W1; reflexivity).
    unfold finish_curve in FI. cbv zeta in FI. rewrite CW, PO in FI. unfold is_curve_complete in FI.
    destruct (c_threshold (w_config w) <=? p_quote p2) eqn:C.
    - apply bind_ok in FI. destruct FI as (fees & FE & FI).
      apply bind_ok in FI. destruct FI as (x & X & FI).
      apply bind_ok in FI. destruct FI as (t & T & FI).
      apply bind_ok in FI. destruct FI as (rq & RQ & FI).
      apply bind_ok in FI. destruct FI as (u & U & FI). minv.
      eexists. split; [reflexivity|]. split; [simpl; reflexivity|]. right.
      split; [lia|]. split; [exists t, fees; repeat split; auto; simpl; lia|].
      simpl. reflexivity.
    - minv. exists p2. split; auto. split; [|left; split; [lia|auto]].
      rewrite <- PO. destruct w'; reflexivity. }
  destruct FI' as (p2' & WP & WE & CASES).
  constructor; auto.
  - unfold is_curve_complete in OP. lia.
  - exists p2. split; auto. rewrite EP1 in PR, FN. simpl in PR, FN.
    split; auto. split; auto. rewrite WP. auto.
  - rewrite WE. simpl. rewrite B. reflexivity.
  - rewrite WE. simpl. rewrite Qv. reflexivity.
  - rewrite WE. simpl. rewrite L. reflexivity.
  - rewrite WE, W1. apply world_eta; reflexivity.
  - exists vt. split; [exact PT|]. split; [|cbv zeta; rewrite <- EP1; auto].
    assert (TE : p_tracker (w_pool w') = p_tracker p2).
    { rewrite WP. destruct CASES as [(_ & ->)|(_ & _ & ->)]; reflexivity. }
    rewrite TE. rewrite EP1 in AT. exact AT.
Qed.
