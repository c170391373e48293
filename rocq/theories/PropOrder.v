(** * The order of collecting does not matter: C78.

    Partner, creator, protocol and leftover receiver each have several amounts to collect from a
    pool. Whoever collects first, nobody gets less (or more) than they would have got alone, no
    instruction fails because another one came before it, and the pool ends up the same. *)
From Coq Require Import ZArith List Bool Lia ZifyBool Permutation.
From Verif Require Import Base MathModel CurveModel FeeModel ConfigModel PoolModel TxModel
  SystemModel Spec SpecHist Lib CurveProofs CurveLoops Potential CalcProofs ConfigProofs FeeProofs
  SwapProofs InvProofs InvOps InvReach Effects Bounds Frame Only PropSafe PropAccess PropStrand Fixtures FixturesReach.
Import ListNotations.
Open Scope Z_scope.
#[local] Arguments Z.pow : simpl never.
#[local] Arguments Z.testbit : simpl never.

(** ** Specification *)

(** What can be collected from a pool. *)
Inductive entitlement :=
  | PartnerFees | CreatorFees | ProtocolFees | PartnerSurplus | CreatorSurplus
  | PartnerMigrationFee | CreatorMigrationFee | Leftover | PartnerCreationFee | ProtocolCreationFee.

(** The instruction collects this entitlement. The protocol has two ways for its fees: to the
    treasury, or through an operator who swaps them. *)
Definition collects (o : op) : option entitlement :=
  match o with
  | OClaimPartner _ _ _ _ => Some PartnerFees
  | OClaimCreator _ _ _ _ => Some CreatorFees
  | OClaimProtocol _ _ _ | OZap _ _ _ _ _ => Some ProtocolFees
  | OPartnerSurplus _ _ => Some PartnerSurplus
  | OCreatorSurplus _ _ => Some CreatorSurplus
  | OMigrationFee _ _ f => if f =? 0 then Some PartnerMigrationFee
                           else if f =? 1 then Some CreatorMigrationFee else None
  | OLeftover => Some Leftover
  | OPartnerCreationFee _ _ => Some PartnerCreationFee
  | OProtocolCreationFee _ => Some ProtocolCreationFee
  | _ => None
  end.

(** The payments that the instruction makes in state [w]. *)
Definition paid (w : world) (o : op) : list transfer := skipn (length (w_log w)) (w_log (step w o)).

(** Two states are the same, except for the order in which payments were recorded. *)
Definition same_state (w w' : world) : Prop :=
  set_w_log w' (w_log w) = w /\ Permutation (w_log w) (w_log w').

(** ** The parts of the state an entitlement depends on *)

Definition view (e : entitlement) (w : world) : list Z :=
  let p := w_pool w in
  match e with
  | PartnerFees => [p_partner_base p; p_partner_quote p]
  | CreatorFees => [p_creator_base p; p_creator_quote p]
  | ProtocolFees => [p_protocol_base p; p_protocol_quote p; p_mig_base_fee p; p_mig_quote_fee p;
                     p_protocol_surplus p]
  | PartnerSurplus => [p_partner_surplus p]
  | CreatorSurplus => [p_creator_surplus p]
  | PartnerMigrationFee => [Z.b2z (Z.testbit (p_mig_fee_status p) 2)]
  | CreatorMigrationFee => [Z.b2z (Z.testbit (p_mig_fee_status p) 1)]
  | Leftover => [p_leftover p; w_bvault w - (p_partner_base p + p_protocol_base p + p_creator_base p)
                                - p_mig_base_fee p]
  | PartnerCreationFee => [Z.b2z (Z.testbit (p_creation_bits p) 1)]
  | ProtocolCreationFee => [Z.b2z (Z.testbit (p_creation_bits p) 0)]
  end.

(** Everything else. *)
Definition blank (p : pool) : pool :=
  set_protocol_base (set_protocol_quote (set_partner_base (set_partner_quote (set_creator_base
    (set_creator_quote (set_partner_surplus (set_protocol_surplus (set_creator_surplus
    (set_leftover (set_mig_fee_status (set_creation_bits (set_mig_base_fee (set_mig_quote_fee p
      0) 0) 0) 0) 0) 0) 0) 0) 0) 0) 0) 0) 0) 0.
Definition core (w : world) : world :=
  set_w_log (set_w_lamports (set_w_qvault (set_w_bvault (set_w_pool w (blank (w_pool w))) 0) 0) 0) [].

Definition moved (w w' : world) (l : list transfer) : Prop :=
  w_log w' = w_log w ++ l /\ w_bvault w' = w_bvault w + net TBase l
  /\ w_qvault w' = w_qvault w + net TQuote l /\ w_lamports w' = w_lamports w + net TSol l.

Lemma eff_moved w w' p l : eff w w' p l -> moved w w' l.
Proof. intros []. repeat split; auto. Qed.

Lemma core_eff w w' p l : eff w w' p l -> rest_same w w' -> blank p = blank (w_pool w) -> core w' = core w.
Proof.
  intros [] [] B. unfold core. rewrite ef_pool, B. destruct w, w'. simpl in *. subst. reflexivity.
Qed.

(** The protocol's claims as functions of the amounts. *)
Lemma base_claim_eq p m p' x : claim_protocol_base_fee p m = Ok (p', x) ->
  let a := Z.min (p_protocol_base p) m in let b := Z.min (p_mig_base_fee p) (m - a) in
  p' = set_mig_base_fee (set_protocol_base p (p_protocol_base p - a)) (p_mig_base_fee p - b)
  /\ x = a + b.
Proof.
  intros H a b. unfold claim_protocol_base_fee in H. cbv zeta in H. fold a in H.
  apply bind_ok in H. destruct H as (p1 & H1 & H). apply bind_ok in H1. destruct H1 as (v & V & H1).
  apply Ok_inj in H1. subst p1. apply ssub_ok in V. destruct V as (-> & _).
  apply bind_ok in H. destruct H as (r & R & H). apply ssub_ok in R. destruct R as (-> & _). fold b in H.
  apply bind_ok in H. destruct H as (p2 & H2 & H). apply bind_ok in H2. destruct H2 as (v & V & H2).
  apply Ok_inj in H2. subst p2. apply ssub_ok in V. destruct V as (-> & _).
  apply bind_ok in H. destruct H as (t & T & H). apply sadd_ok in T.
  apply Ok_inj in H. apply pair_inj in H. destruct H as (<- & <-). split; [reflexivity|lia].
Qed.

Lemma quote_claim_eq p c m p' x : claim_protocol_quote_fee_and_surplus p c m = Ok (p', x) ->
  let a := Z.min (p_protocol_quote p) m in let b := Z.min (p_mig_quote_fee p) (m - a) in
  let ps := (p_protocol_surplus p =? 0) && (c_threshold c <=? p_quote p) in
  let p1 := set_mig_quote_fee (set_protocol_quote p (p_protocol_quote p - a)) (p_mig_quote_fee p - b) in
  p' = (if ps then set_protocol_surplus p1 1 else p1)
  /\ x = a + b + (if ps then surplus_protocol c (p_quote p) else 0).
Proof.
  intros H a b ps p1. unfold claim_protocol_quote_fee_and_surplus in H.
  apply bind_ok in H. destruct H as ([p3 am] & Q & H).
  assert (E : p3 = p1 /\ am = a + b).
  { unfold claim_protocol_quote_fee in Q. cbv zeta in Q. fold a in Q.
    apply bind_ok in Q. destruct Q as (p4 & H1 & Q). apply bind_ok in H1. destruct H1 as (v & V & H1).
    apply Ok_inj in H1. subst p4. apply ssub_ok in V. destruct V as (-> & _).
    apply bind_ok in Q. destruct Q as (r & R & Q). apply ssub_ok in R. destruct R as (-> & _). fold b in Q.
    apply bind_ok in Q. destruct Q as (p4 & H2 & Q). apply bind_ok in H2. destruct H2 as (v & V & H2).
    apply Ok_inj in H2. subst p4. apply ssub_ok in V. destruct V as (-> & _).
    apply bind_ok in Q. destruct Q as (t & T & Q). apply sadd_ok in T.
    apply Ok_inj in Q. apply pair_inj in Q. destruct Q as (<- & <-). split; [reflexivity|lia]. }
  destruct E as (-> & ->). unfold is_curve_complete in H.
  change (p_protocol_surplus p1) with (p_protocol_surplus p) in H.
  change (p_quote p1) with (p_quote p) in H. fold ps in H. destruct ps.
  - apply bind_ok in H. destruct H as (s & S & H). apply (protocol_surplus_eq _ c) in S.
    change (p_quote p1) with (p_quote p) in S.
    apply bind_ok in H. destruct H as (t & T & H). apply sadd_ok in T.
    apply Ok_inj in H. apply pair_inj in H. destruct H as (<- & <-). split; auto. lia.
  - apply Ok_inj in H. apply pair_inj in H. destruct H as (<- & <-). split; auto. lia.
Qed.

Definition after_protocol (w : world) (b q : Z) (quote : bool) : list Z :=
  let p := w_pool w in
  let a := Z.min (p_protocol_base p) b in let a' := Z.min (p_protocol_quote p) q in
  [p_protocol_base p - a; p_protocol_quote p - a';
   p_mig_base_fee p - Z.min (p_mig_base_fee p) (b - a);
   p_mig_quote_fee p - Z.min (p_mig_quote_fee p) (q - a');
   if quote && (p_protocol_surplus p =? 0) && (c_threshold (w_config w) <=? p_quote p)
   then 1 else p_protocol_surplus p].

Lemma protocol_view w s b q w' : claim_protocol_fee w s b q = Ok w' ->
  view ProtocolFees w' = after_protocol w b q true /\ blank (w_pool w') = blank (w_pool w).
Proof.
  intros H. unfold claim_protocol_fee in H.
  apply bind_ok in H. destruct H as ([] & _ & H).
  apply bind_ok in H. destruct H as ([p1 x] & CB & H). apply base_claim_eq in CB. cbv zeta in CB.
  destruct CB as (E1 & _).
  apply bind_ok in H. destruct H as (w1 & _ & H).
  apply bind_ok in H. destruct H as ([p2 y] & CQ & H). apply quote_claim_eq in CQ. cbv zeta in CQ.
  destruct CQ as (E2 & _).
  assert (P : w_pool w' = p2).
  { destruct (0 <? y).
    - apply pay_quote_eff in H; auto. destruct H as (G & _). rewrite (ef_pool _ _ _ _ G). reflexivity.
    - apply Ok_inj in H. subst w'. reflexivity. }
  unfold view, after_protocol. rewrite P, E2, E1. clear. destruct (w_pool w). simpl.
  destruct ((_ =? 0) && _); split; reflexivity.
Qed.

Lemma zap_view w s m base al ok w' : zap_protocol_fee w s m base al ok = Ok w' ->
  view ProtocolFees w' = (let v := after_protocol w m m (negb base) in
                          let p := w_pool w in
                          if base then [nth 0 v 0; p_protocol_quote p; nth 2 v 0; p_mig_quote_fee p; nth 4 v 0]
                          else [p_protocol_base p; nth 1 v 0; p_mig_base_fee p; nth 3 v 0; nth 4 v 0])
  /\ blank (w_pool w') = blank (w_pool w).
Proof.
  intros H. unfold zap_protocol_fee in H.
  apply bind_ok in H. destruct H as ([] & _ & H). apply bind_ok in H. destruct H as (u & _ & H).
  apply bind_ok in H. destruct H as ([p1 x] & C & H).
  apply bind_ok in H. destruct H as (u1 & _ & H). apply bind_ok in H. destruct H as (u2 & _ & H).
  assert (P : w_pool w' = p1).
  { destruct base.
    - apply pay_base_eff in H; auto. destruct H as (G & _). rewrite (ef_pool _ _ _ _ G). reflexivity.
    - apply pay_quote_eff in H; auto. destruct H as (G & _). rewrite (ef_pool _ _ _ _ G). reflexivity. }
  unfold view, after_protocol. rewrite P. destruct base.
  - apply base_claim_eq in C. cbv zeta in C. destruct C as (-> & _). clear. destruct (w_pool w). split; reflexivity.
  - apply quote_claim_eq in C. cbv zeta in C. destruct C as (-> & _). clear. destruct (w_pool w). simpl.
    destruct ((_ =? 0) && _); split; reflexivity.
Qed.

(** ** What an instruction leaves alone *)

Lemma views_eff w w' p l e : eff w w' p l ->
  (e <> Leftover -> view e w = view e (set_w_pool w p)) ->
  (e = Leftover -> view e w = view e (set_w_bvault (set_w_pool w p) (w_bvault w + net TBase l))) ->
  view e w' = view e w.
Proof.
  intros [] V L. destruct e; try (rewrite V by discriminate; unfold view; rewrite ef_pool; reflexivity).
  rewrite L by reflexivity. unfold view. rewrite ef_pool, ef_base. reflexivity.
Qed.

Lemma status_other w x : Inv w ->
  (Z.testbit (p_mig_fee_status (w_pool w)) 2 = false -> x = p_mig_fee_status (w_pool w) + 4 ->
     Z.testbit x 1 = Z.testbit (p_mig_fee_status (w_pool w)) 1 /\ Z.testbit x 2 = true)
  /\ (Z.testbit (p_mig_fee_status (w_pool w)) 1 = false -> x = p_mig_fee_status (w_pool w) + 2 ->
     Z.testbit x 2 = Z.testbit (p_mig_fee_status (w_pool w)) 2 /\ Z.testbit x 1 = true).
Proof.
  intros I. split; intros B ->; destruct (iv_status _ I) as [X|[X|[X|X]]]; rewrite X in *;
    try discriminate B; split; reflexivity.
Qed.
Lemma cbits_other w x : Inv w ->
  (Z.testbit (p_creation_bits (w_pool w)) 1 = false -> x = p_creation_bits (w_pool w) + 2 ->
     Z.testbit x 0 = Z.testbit (p_creation_bits (w_pool w)) 0 /\ Z.testbit x 1 = true)
  /\ (Z.testbit (p_creation_bits (w_pool w)) 0 = false -> x = p_creation_bits (w_pool w) + 1 ->
     Z.testbit x 1 = Z.testbit (p_creation_bits (w_pool w)) 1 /\ Z.testbit x 0 = true).
Proof.
  intros I. split; intros B ->; destruct (iv_cbits _ I) as [X|[X|[X|X]]]; rewrite X in *;
    try discriminate B; split; reflexivity.
Qed.

Ltac two t := apply (f_equal2 cons); [reflexivity|apply (f_equal2 cons); [t|reflexivity]].

Lemma alone o e w w' : reachable w -> collects o = Some e -> exec w o = Ok w' ->
  exists l, moved w w' l /\ core w' = core w /\ (forall e', e' <> e -> view e' w' = view e' w).
Proof.
  intros R C H. pose proof (reachable_inv _ R) as I.
  destruct o; try discriminate C; cbn [collects] in C; exec_in H.
  - injection C as <-. apply partner_eff in H. cbv zeta in H. destruct H as (_ & E & S).
    eexists. split; [eapply eff_moved; eauto|]. split; [eapply core_eff; eauto; reflexivity|].
    intros e' N. eapply views_eff; eauto; intros; destruct e'; try congruence; try reflexivity;
      simpl; two ltac:(unfold flow; simpl; lia).
  - injection C as <-. apply creator_eff in H. cbv zeta in H. destruct H as (_ & E & S).
    eexists. split; [eapply eff_moved; eauto|]. split; [eapply core_eff; eauto; reflexivity|].
    intros e' N. eapply views_eff; eauto; intros; destruct e'; try congruence; try reflexivity;
      simpl; two ltac:(unfold flow; simpl; lia).
  - injection C as <-. simpl in A. apply andb_true_iff in A. destruct A as (A1 & A2).
    apply u64b_ok in A1. apply u64b_ok in A2. destruct A1 as (A1 & _), A2 as (A2 & _).
    pose proof (protocol_view _ _ _ _ _ H) as (_ & BL).
    apply protocol_eff in H; auto. cbv zeta in H.
    destruct H as (_ & p' & E & S & a1 & b1 & a2 & b2 & X & Y & Z1 & Z2 & Z3 & Z4 & P).
    rewrite (ef_pool _ _ _ _ E) in BL.
    eexists. split; [eapply eff_moved; eauto|]. split; [eapply core_eff; eauto|].
    intros e' N. eapply views_eff; eauto; intros; subst p'; destruct e'; try congruence;
      try (destruct ((_ =? 0) && _); reflexivity).
    unfold view. apply (f_equal2 cons); [destruct ((_ =? 0) && _); reflexivity|]. apply (f_equal2 cons); [|reflexivity].
    rewrite net_app. clear E. set (y := Z.min maxq _) in *.
    destruct ((p_protocol_surplus _ =? 0) && _); destruct (0 <? Z.min maxb _) eqn:Q1; destruct (0 <? y + _); unfold flow; simpl;
      unfold flow; simpl; lia.
  - injection C as <-. simpl in A. apply u64b_ok in A. destruct A as (A & _).
    pose proof (zap_view _ _ _ _ _ _ _ H) as (_ & BL).
    apply zap_eff in H; auto. cbv zeta in H.
    destruct H as (_ & _ & _ & p' & E & S & _ & a & b & X & Z1 & Z2 & P).
    rewrite (ef_pool _ _ _ _ E) in BL.
    eexists. split; [eapply eff_moved; eauto|]. split; [eapply core_eff; eauto|].
    intros e' N. eapply views_eff; eauto; intros; subst p'; destruct e'; try congruence;
      try (destruct base; [|destruct ((_ =? 0) && _)]; reflexivity).
    unfold view. apply (f_equal2 cons); [destruct base; [|destruct ((_ =? 0) && _)]; reflexivity|].
    apply (f_equal2 cons); [|reflexivity]. clear E.
    destruct base; [|destruct ((_ =? 0) && _)]; unfold flow; simpl; unfold flow; simpl; lia.
  - injection C as <-. apply partner_surplus_eff in H; auto. destruct H as (_ & _ & _ & E & S).
    eexists. split; [eapply eff_moved; eauto|]. split; [eapply core_eff; eauto; reflexivity|].
    intros e' N. eapply views_eff; eauto; intros; destruct e'; try congruence; try reflexivity;
      simpl; two ltac:(unfold flow; simpl; lia).
  - injection C as <-. apply creator_surplus_eff in H; auto. destruct H as (_ & _ & _ & E & S).
    eexists. split; [eapply eff_moved; eauto|]. split; [eapply core_eff; eauto; reflexivity|].
    intros e' N. eapply views_eff; eauto; intros; destruct e'; try congruence; try reflexivity;
      simpl; two ltac:(unfold flow; simpl; lia).
  - apply migration_fee_eff in H; auto. destruct H as (_ & S & [(-> & _ & B & E)|(-> & _ & B & E)]).
    + injection C as <-. destruct (proj1 (status_other w _ I) B eq_refl) as (O & _).
      eexists. split; [eapply eff_moved; eauto|]. split; [eapply core_eff; eauto; reflexivity|].
      intros e' N. eapply views_eff; eauto; intros; destruct e'; try congruence; try reflexivity;
        [simpl; rewrite O; reflexivity|simpl; two ltac:(unfold flow; simpl; lia)].
    + injection C as <-. destruct (proj2 (status_other w _ I) B eq_refl) as (O & _).
      eexists. split; [eapply eff_moved; eauto|]. split; [eapply core_eff; eauto; reflexivity|].
      intros e' N. eapply views_eff; eauto; intros; destruct e'; try congruence; try reflexivity;
        [simpl; rewrite O; reflexivity|simpl; two ltac:(unfold flow; simpl; lia)].
  - injection C as <-. apply leftover_eff in H. destruct H as (_ & _ & _ & E & S).
    eexists. split; [eapply eff_moved; eauto|]. split; [eapply core_eff; eauto; reflexivity|].
    intros e' N. eapply views_eff; eauto; intros; destruct e'; try congruence; reflexivity.
  - injection C as <-. apply partner_cf_eff in H; auto. cbv zeta in H. destruct H as (_ & _ & B & E & S).
    destruct (proj1 (cbits_other w _ I) B eq_refl) as (O & _).
    eexists. split; [eapply eff_moved; eauto|]. split; [eapply core_eff; eauto; reflexivity|].
    intros e' N. eapply views_eff; eauto; intros; destruct e'; try congruence; try reflexivity;
      [simpl; rewrite O; reflexivity|simpl; two ltac:(unfold flow; simpl; lia)].
  - injection C as <-. apply protocol_cf_eff in H; auto. cbv zeta in H. destruct H as (_ & E & S).
    destruct (Z.testbit (p_creation_bits (w_pool w)) 0) eqn:B; cbn [negb] in E.
    + eexists. split; [eapply eff_moved; eauto|]. split; [eapply core_eff; eauto; reflexivity|].
      intros e' N. eapply views_eff; eauto; intros; destruct e'; try congruence; try reflexivity;
        simpl; two ltac:(unfold flow; simpl; lia).
    + destruct (proj2 (cbits_other w _ I) B eq_refl) as (O & _).
      eexists. split; [eapply eff_moved; eauto|]. split; [eapply core_eff; eauto; reflexivity|].
      intros e' N. eapply views_eff; eauto; intros; destruct e'; try congruence; try reflexivity;
        [simpl; rewrite O; reflexivity|].
      destruct (0 <? creation_fee_protocol _); simpl; two ltac:(unfold flow; simpl; lia).
Qed.

(** ** The same instruction in another state that looks the same to it *)

Lemma core_config w w1 : core w1 = core w -> w_config w1 = w_config w.
Proof. intros H. exact (f_equal w_config H). Qed.
Lemma core_operators w w1 : core w1 = core w -> w_operators w1 = w_operators w.
Proof. intros H. exact (f_equal w_operators H). Qed.
Lemma core_creator w w1 : core w1 = core w -> p_creator (w_pool w1) = p_creator (w_pool w).
Proof. intros H. exact (f_equal (fun x => p_creator (w_pool x)) H). Qed.
Lemma core_quote w w1 : core w1 = core w -> p_quote (w_pool w1) = p_quote (w_pool w).
Proof. intros H. exact (f_equal (fun x => p_quote (w_pool x)) H). Qed.
Lemma core_progress w w1 : core w1 = core w -> p_progress (w_pool w1) = p_progress (w_pool w).
Proof. intros H. exact (f_equal (fun x => p_progress (w_pool x)) H). Qed.
Lemma b2z_inj a b : Z.b2z a = Z.b2z b -> a = b.
Proof. destruct a, b; auto; discriminate. Qed.

Lemma zap_works w s m (base : bool) : reachable w -> u64ok m -> permitted w s 1 ->
  (if base then 0 < Z.min m (p_protocol_base (w_pool w) + p_mig_base_fee (w_pool w))
   else 0 < Z.min m (p_protocol_quote (w_pool w) + p_mig_quote_fee (w_pool w))
        + (if (p_protocol_surplus (w_pool w) =? 0) && (c_threshold (w_config w) <=? p_quote (w_pool w))
           then surplus_protocol (w_config w) (p_quote (w_pool w)) else 0)) ->
  is_ok (exec w (OZap s m base true true)) = true.
Proof.
  intros R HM PE PO. pose proof (reachable_inv _ R) as I.
  pose proof (created_cfg_ok _ (iv_created _ I)) as K.
  pose proof (iv_flags _ I) as (_ & _ & FL & _).
  destruct (reachable_bounded _ R) as [BB BQ B].
  destruct (due_ok _ I) as (mp & mc & sp & sc & sr & []).
  unfold exec. rewrite require_true by (simpl; rewrite !u64b_intro; auto). cbn [bind].
  unfold zap_protocol_fee. unfold ZAP_PROTOCOL_FEE.
  rewrite (proj2 (check_operator_ok w s 1 ltac:(lia)) PE). cbn [bind require].
  destruct HM as (HM & _). destruct base.
  - unfold claim_protocol_base_fee. cbv zeta.
    rewrite ssub_intro by lia. cbn [bind]. rewrite ssub_intro by lia. cbn [bind].
    cbn [p_mig_base_fee set_protocol_base].
    rewrite ssub_intro by lia. cbn [bind]. rewrite sadd_intro by lia. cbn [bind].
    rewrite require_true by lia. cbn [bind].
    unfold pay_base. rewrite require_true by (simpl; lia). reflexivity.
  - unfold claim_protocol_quote_fee_and_surplus, claim_protocol_quote_fee. cbv zeta.
    rewrite ssub_intro by lia. cbn [bind]. rewrite ssub_intro by lia. cbn [bind].
    cbn [p_mig_quote_fee set_protocol_quote].
    rewrite ssub_intro by lia. cbn [bind]. rewrite sadd_intro by lia. cbn [bind].
    set (y := Z.min (p_protocol_quote (w_pool w)) m
              + Z.min (p_mig_quote_fee (w_pool w)) (m - Z.min (p_protocol_quote (w_pool w)) m)).
    set (p2 := set_mig_quote_fee _ _).
    change (p_protocol_surplus p2) with (p_protocol_surplus (w_pool w)).
    unfold is_curve_complete.
    change (p_quote p2) with (p_quote (w_pool w)).
    destruct ((p_protocol_surplus (w_pool w) =? 0) && (c_threshold (w_config w) <=? p_quote (w_pool w))) eqn:C.
    + apply andb_true_iff in C. destruct C as (C1 & C2).
      destruct (du_eq ltac:(lia)) as (_ & _ & _ & _ & E).
      assert (Z0 : p_protocol_surplus (w_pool w) = 0) by lia. rewrite Z0 in E.
      change (0 =? 1) with false in E. unfold unless in E.
      rewrite protocol_surplus_live; [|auto|change (p_quote p2) with (p_quote (w_pool w)); lia].
      change (p_quote p2) with (p_quote (w_pool w)). cbn [bind].
      rewrite sadd_intro by lia. cbn [bind].
      rewrite require_true by lia. cbn [bind].
      unfold pay_quote. rewrite require_true by (simpl; lia). reflexivity.
    + cbn [bind]. rewrite require_true by lia. cbn [bind].
      unfold pay_quote. rewrite require_true by (simpl; lia). reflexivity.
Qed.

(** An operator can take protocol fees out to swap them exactly if it has the zap permission, the
    mint is not excluded, the swap to the treasury follows, and there is something to take. *)
Theorem C40_zap : forall w s m (base al ok : bool), reachable w -> u64ok m ->
  let p := w_pool w in
  let surplus := if (p_protocol_surplus p =? 0) && (c_threshold (w_config w) <=? p_quote p)
                 then surplus_protocol (w_config w) (p_quote p) else 0 in
  let amount := if base then Z.min m (p_protocol_base p + p_mig_base_fee p)
                else Z.min m (p_protocol_quote p + p_mig_quote_fee p) + surplus in
  is_ok (exec w (OZap s m base al ok)) = true
  <-> permitted w s 1 /\ al = true /\ ok = true /\ 0 < amount.
Proof.
  intros w s m base al ok R HM p surplus amount. split.
  - intros H. apply is_ok_inv in H. destruct H as (w' & H). exec_in H. clear A.
    apply zap_eff in H; [|apply reachable_inv; exact R|apply HM]. cbv zeta in H.
    destruct H as (PE & AL & OK & p' & _ & _ & PO & _). repeat (split; [assumption|]).
    unfold amount. destruct base; exact PO.
  - intros (PE & -> & -> & PO). apply zap_works; auto. unfold amount in PO. destruct base; exact PO.
Qed.

Ltac exec_in1 H := let A' := fresh "A'" in pose proof (exec_args _ _ _ H) as A'; unfold exec in H; rewrite A' in H;
  cbn [require bind] in H; clear A'.

Lemma parallel o e w w1 w' : reachable w -> reachable w1 -> collects o = Some e ->
  core w1 = core w -> view e w1 = view e w -> exec w o = Ok w' ->
  exists w1' l, exec w1 o = Ok w1' /\ moved w w' l /\ moved w1 w1' l /\ view e w1' = view e w'.
Proof.
  intros R R1 C CO V H. pose proof (reachable_inv _ R) as I. pose proof (reachable_inv _ R1) as I1.
  pose proof (core_config _ _ CO) as EC. pose proof (core_operators _ _ CO) as EO.
  pose proof (core_creator _ _ CO) as ER. pose proof (core_quote _ _ CO) as EQ.
  pose proof (core_progress _ _ CO) as EP.
  assert (PM : forall s b, permitted w s b -> permitted w1 s b) by (unfold permitted; rewrite EO; auto).
  destruct o; try discriminate C; cbn [collects] in C; exec_in H.
  - injection C as <-. cbn [args_ok] in A. apply andb_true_iff in A. destruct A as (A1 & A2).
    apply u64b_ok in A1. apply u64b_ok in A2.
    apply partner_eff in H. cbv zeta in H. destruct H as (-> & E & S).
    destruct (is_ok_inv _ (C17_partner_can_claim w1 to maxb maxq R1 A1 A2)) as (w1' & H1).
    rewrite EC in H1. exists w1'. pose proof H1 as H0. exec_in1 H1. apply partner_eff in H1. cbv zeta in H1.
    destruct H1 as (_ & E1 & S1). injection V as V1 V2. rewrite V1, V2 in E1.
    eexists. split; [exact H0|]. split; [eapply eff_moved; eauto|]. split; [eapply eff_moved; eauto|].
    unfold view. rewrite (ef_pool _ _ _ _ E), (ef_pool _ _ _ _ E1). reflexivity.
  - injection C as <-. cbn [args_ok] in A. apply andb_true_iff in A. destruct A as (A1 & A2).
    apply u64b_ok in A1. apply u64b_ok in A2.
    apply creator_eff in H. cbv zeta in H. destruct H as (-> & E & S).
    destruct (is_ok_inv _ (C17_creator_can_claim w1 to maxb maxq R1 A1 A2)) as (w1' & H1).
    rewrite ER in H1. exists w1'. pose proof H1 as H0. exec_in1 H1. apply creator_eff in H1. cbv zeta in H1.
    destruct H1 as (_ & E1 & S1). injection V as V1 V2. rewrite V1, V2 in E1.
    eexists. split; [exact H0|]. split; [eapply eff_moved; eauto|]. split; [eapply eff_moved; eauto|].
    unfold view. rewrite (ef_pool _ _ _ _ E), (ef_pool _ _ _ _ E1). reflexivity.
  - injection C as <-. cbn [args_ok] in A. apply andb_true_iff in A. destruct A as (A1 & A2).
    apply u64b_ok in A1. apply u64b_ok in A2.
    pose proof (protocol_view _ _ _ _ _ H) as (VW & _).
    apply protocol_eff in H; auto; [|apply A1|apply A2]. cbv zeta in H.
    destruct H as (PE & p' & E & _).
    destruct (is_ok_inv _ (C17_protocol_can_claim w1 signer maxb maxq R1 A1 A2 (PM _ _ PE))) as (w1' & H1).
    exists w1'. pose proof H1 as H0. exec_in1 H1. pose proof (protocol_view _ _ _ _ _ H1) as (VW1 & _).
    apply protocol_eff in H1; auto; [|apply A1|apply A2]. cbv zeta in H1. destruct H1 as (_ & p1' & E1 & _).
    unfold view in V. injection V as V1 V2 V3 V4 V5. rewrite V1, V2, V3, V4, V5, EC, EQ in E1.
    eexists. split; [exact H0|]. split; [eapply eff_moved; eauto|]. split; [eapply eff_moved; eauto|].
    rewrite VW, VW1. unfold after_protocol. rewrite V1, V2, V3, V4, V5, EC, EQ. reflexivity.
  - injection C as <-. cbn [args_ok] in A. apply u64b_ok in A.
    pose proof (zap_view _ _ _ _ _ _ _ H) as (VW & _).
    apply zap_eff in H; auto; [|apply A]. cbv zeta in H.
    destruct H as (PE & -> & -> & p' & E & _ & PO & _).
    unfold view in V. injection V as V1 V2 V3 V4 V5.
    assert (H1 : is_ok (exec w1 (OZap signer maxa base true true)) = true).
    { apply zap_works; auto. rewrite V1, V2, V3, V4, V5, EC, EQ. destruct base; exact PO. }
    destruct (is_ok_inv _ H1) as (w1' & H0). clear H1. rename H0 into H1.
    exists w1'. pose proof H1 as H0. exec_in1 H1. pose proof (zap_view _ _ _ _ _ _ _ H1) as (VW1 & _).
    apply zap_eff in H1; auto; [|apply A]. cbv zeta in H1. destruct H1 as (_ & _ & _ & p1' & E1 & _).
    rewrite V1, V2, V3, V4, V5, EC, EQ in E1.
    eexists. split; [exact H0|]. split; [eapply eff_moved; eauto|]. split; [eapply eff_moved; eauto|].
    rewrite VW, VW1. unfold after_protocol. rewrite V1, V2, V3, V4, V5, EC, EQ. reflexivity.
  - injection C as <-. apply partner_surplus_eff in H; auto. destruct H as (-> & TH & F & E & S).
    injection V as V. assert (F1 : p_partner_surplus (w_pool w1) = 0) by congruence.
    assert (TH1 : c_threshold (w_config w1) <= p_quote (w_pool w1)) by (rewrite EC, EQ; exact TH).
    destruct (is_ok_inv _ (C17_partner_can_withdraw_surplus w1 to R1 TH1 F1)) as (w1' & H1).
    rewrite EC in H1. exists w1'. pose proof H1 as H0. exec_in1 H1. apply partner_surplus_eff in H1; auto.
    destruct H1 as (_ & _ & _ & E1 & _). rewrite EC, EQ in E1.
    eexists. split; [exact H0|]. split; [eapply eff_moved; eauto|]. split; [eapply eff_moved; eauto|].
    unfold view. rewrite (ef_pool _ _ _ _ E), (ef_pool _ _ _ _ E1). reflexivity.
  - injection C as <-. apply creator_surplus_eff in H; auto. destruct H as (-> & TH & F & E & S).
    injection V as V. assert (F1 : p_creator_surplus (w_pool w1) = 0) by congruence.
    assert (TH1 : c_threshold (w_config w1) <= p_quote (w_pool w1)) by (rewrite EC, EQ; exact TH).
    destruct (is_ok_inv _ (C17_creator_can_withdraw_surplus w1 to R1 TH1 F1)) as (w1' & H1).
    rewrite ER in H1. exists w1'. pose proof H1 as H0. exec_in1 H1. apply creator_surplus_eff in H1; auto.
    destruct H1 as (_ & _ & _ & E1 & _). rewrite EC, EQ in E1.
    eexists. split; [exact H0|]. split; [eapply eff_moved; eauto|]. split; [eapply eff_moved; eauto|].
    unfold view. rewrite (ef_pool _ _ _ _ E), (ef_pool _ _ _ _ E1). reflexivity.
  - apply migration_fee_eff in H; auto. destruct H as (TH & _ & [(-> & -> & B & E)|(-> & -> & B & E)]);
      (assert (TH1 : c_threshold (w_config w1) <= p_quote (w_pool w1)) by (rewrite EC, EQ; exact TH));
      injection C as <-; injection V as V; apply b2z_inj in V.
    + assert (B1 : Z.testbit (p_mig_fee_status (w_pool w1)) 2 = false) by congruence.
      destruct (is_ok_inv _ (proj1 (C17_migration_fee_can_be_withdrawn w1 to R1 TH1) B1)) as (w1' & H1).
      rewrite EC in H1. exists w1'. pose proof H1 as H0. exec_in1 H1. apply migration_fee_eff in H1; auto.
      destruct H1 as (_ & _ & [(_ & _ & _ & E1)|(X & _)]); [|discriminate X]. rewrite EC in E1.
      eexists. split; [exact H0|]. split; [eapply eff_moved; eauto|]. split; [eapply eff_moved; eauto|].
      unfold view. rewrite (ef_pool _ _ _ _ E), (ef_pool _ _ _ _ E1). cbn [p_mig_fee_status set_mig_fee_status].
      rewrite (proj2 (proj1 (status_other w _ I) B eq_refl)), (proj2 (proj1 (status_other w1 _ I1) B1 eq_refl)).
      reflexivity.
    + assert (B1 : Z.testbit (p_mig_fee_status (w_pool w1)) 1 = false) by congruence.
      destruct (is_ok_inv _ (proj2 (C17_migration_fee_can_be_withdrawn w1 to R1 TH1) B1)) as (w1' & H1).
      rewrite ER in H1. exists w1'. pose proof H1 as H0. exec_in1 H1. apply migration_fee_eff in H1; auto.
      destruct H1 as (_ & _ & [(X & _)|(_ & _ & _ & E1)]); [discriminate X|]. rewrite EC in E1.
      eexists. split; [exact H0|]. split; [eapply eff_moved; eauto|]. split; [eapply eff_moved; eauto|].
      unfold view. rewrite (ef_pool _ _ _ _ E), (ef_pool _ _ _ _ E1). cbn [p_mig_fee_status set_mig_fee_status].
      rewrite (proj2 (proj2 (status_other w _ I) B eq_refl)), (proj2 (proj2 (status_other w1 _ I1) B1 eq_refl)).
      reflexivity.
  - injection C as <-. apply leftover_eff in H. destruct H as (P3 & FX & L & E & S).
    injection V as V1 V2. assert (L1 : p_leftover (w_pool w1) = 0) by congruence.
    assert (P31 : p_progress (w_pool w1) = 3) by congruence.
    assert (FX1 : is_fixed_supply (w_config w1) = true) by congruence.
    destruct (is_ok_inv _ (C17_leftover_can_be_withdrawn w1 R1 P31 FX1 L1)) as (w1' & H1).
    exists w1'. pose proof H1 as H0. exec_in1 H1. apply leftover_eff in H1.
    destruct H1 as (_ & _ & _ & E1 & _). rewrite V2, EC in E1.
    eexists. split; [exact H0|]. split; [eapply eff_moved; eauto|]. split; [eapply eff_moved; eauto|].
    unfold view. rewrite (ef_pool _ _ _ _ E), (ef_pool _ _ _ _ E1), (ef_base _ _ _ _ E), (ef_base _ _ _ _ E1).
    simpl. unfold flow. simpl. two ltac:(lia).
  - injection C as <-. apply partner_cf_eff in H; auto. cbv zeta in H. destruct H as (-> & P & B & E & S).
    injection V as V. apply b2z_inj in V.
    assert (B1 : Z.testbit (p_creation_bits (w_pool w1)) 1 = false) by congruence.
    rewrite <- EC in P.
    destruct (is_ok_inv _ (proj1 (C17_creation_fee_can_be_claimed w1 to 0 R1) P B1)) as (w1' & H1).
    rewrite EC in H1. exists w1'. pose proof H1 as H0. exec_in1 H1. apply partner_cf_eff in H1; auto. cbv zeta in H1.
    destruct H1 as (_ & _ & _ & E1 & _). rewrite EC in E1.
    eexists. split; [exact H0|]. split; [eapply eff_moved; eauto|]. split; [eapply eff_moved; eauto|].
    unfold view. rewrite (ef_pool _ _ _ _ E), (ef_pool _ _ _ _ E1). cbn [p_creation_bits set_creation_bits].
    rewrite (proj2 (proj1 (cbits_other w _ I) B eq_refl)), (proj2 (proj1 (cbits_other w1 _ I1) B1 eq_refl)).
    reflexivity.
  - injection C as <-. apply protocol_cf_eff in H; auto. cbv zeta in H. destruct H as (PE & E & S).
    injection V as V. apply b2z_inj in V.
    destruct (is_ok_inv _ (proj2 (C17_creation_fee_can_be_claimed w1 0 signer R1) (PM _ _ PE))) as (w1' & H1).
    exists w1'. pose proof H1 as H0. exec_in1 H1. apply protocol_cf_eff in H1; auto. cbv zeta in H1.
    destruct H1 as (_ & E1 & _). rewrite EC, V in E1.
    eexists. split; [exact H0|]. split; [eapply eff_moved; eauto|]. split; [eapply eff_moved; eauto|].
    unfold view. rewrite (ef_pool _ _ _ _ E), (ef_pool _ _ _ _ E1).
    destruct (Z.testbit (p_creation_bits (w_pool w)) 0) eqn:B; cbn [negb p_creation_bits set_creation_bits].
    + rewrite B, V. reflexivity.
    + rewrite (proj2 (proj2 (cbits_other w _ I) B eq_refl)), (proj2 (proj2 (cbits_other w1 _ I1) V eq_refl)).
      reflexivity.
Qed.

(** ** Any order *)

Lemma moved_paid w o w' l : exec w o = Ok w' -> moved w w' l -> paid w o = l.
Proof.
  intros H (M & _). unfold paid, step. rewrite H, M. rewrite skipn_app, skipn_all, Nat.sub_diag. reflexivity.
Qed.

Lemma nth_view0 a b l m : (a : Z) :: l = b :: m -> a = b /\ l = m.
Proof. intros H. injection H. auto. Qed.

Lemma bits_status w1 w2 : Inv w1 -> Inv w2 -> view PartnerMigrationFee w1 = view PartnerMigrationFee w2 ->
  view CreatorMigrationFee w1 = view CreatorMigrationFee w2 ->
  p_mig_fee_status (w_pool w1) = p_mig_fee_status (w_pool w2).
Proof.
  intros I1 I2 A B. simpl in A, B. pose proof (iv_status _ I1) as S1. pose proof (iv_status _ I2) as S2.
  destruct S1 as [X|[X|[X|X]]]; rewrite X in *; destruct S2 as [Y|[Y|[Y|Y]]]; rewrite Y in *;
    first [reflexivity|discriminate A|discriminate B].
Qed.
Lemma bits_creation w1 w2 : Inv w1 -> Inv w2 -> view PartnerCreationFee w1 = view PartnerCreationFee w2 ->
  view ProtocolCreationFee w1 = view ProtocolCreationFee w2 ->
  p_creation_bits (w_pool w1) = p_creation_bits (w_pool w2).
Proof.
  intros I1 I2 A B. simpl in A, B. pose proof (iv_cbits _ I1) as S1. pose proof (iv_cbits _ I2) as S2.
  destruct S1 as [X|[X|[X|X]]]; rewrite X in *; destruct S2 as [Y|[Y|[Y|Y]]]; rewrite Y in *;
    first [reflexivity|discriminate A|discriminate B].
Qed.

Lemma same_parts w1 w2 : Inv w1 -> Inv w2 -> core w1 = core w2 -> (forall e, view e w1 = view e w2) ->
  w_bvault w1 = w_bvault w2 -> w_qvault w1 = w_qvault w2 -> w_lamports w1 = w_lamports w2 ->
  set_w_log w2 (w_log w1) = w1.
Proof.
  intros I1 I2 C V B Q L.
  pose proof (bits_status _ _ I1 I2 (V _) (V _)) as ST. pose proof (bits_creation _ _ I1 I2 (V _) (V _)) as CB.
  pose proof (V PartnerFees) as V1. pose proof (V CreatorFees) as V2. pose proof (V ProtocolFees) as V3.
  pose proof (V PartnerSurplus) as V4. pose proof (V CreatorSurplus) as V5. pose proof (V Leftover) as V6.
  simpl in V1, V2, V3, V4, V5, V6. clear V I1 I2.
  assert (P : w_pool w1 = w_pool w2).
  { assert (X : blank (w_pool w1) = blank (w_pool w2)) by exact (f_equal w_pool C).
    destruct (w_pool w1), (w_pool w2). unfold blank in X. simpl in *.
    injection X. injection V1. injection V2. injection V3. injection V4. injection V5. injection V6.
    intros. subst. reflexivity. }
  destruct w1, w2. unfold core in C. simpl in *. subst. injection C. intros. subst. reflexivity.
Qed.

Lemma net_perm t a b : Permutation a b -> net t a = net t b.
Proof. induction 1; simpl; lia. Qed.

Lemma collect_all w0 os : reachable w0 -> forall w, reachable w -> core w = core w0 ->
  NoDup (map collects os) ->
  (forall o, In o os -> exists e, collects o = Some e /\ view e w = view e w0 /\ is_ok (exec w0 o) = true) ->
  all_ok w os = true
  /\ core (run w os) = core w0
  /\ moved w (run w os) (flat_map (paid w0) os)
  /\ (forall e, ~ In (Some e) (map collects os) -> view e (run w os) = view e w)
  /\ (forall o e, In o os -> collects o = Some e -> view e (run w os) = view e (step w0 o))
  /\ (forall pre o post, os = pre ++ o :: post -> paid (run w pre) o = paid w0 o).
Proof.
  intros R0. induction os as [|o os IH]; intros w R C ND H.
  - simpl. split; [reflexivity|]. split; [exact C|]. split.
    { unfold moved. simpl. rewrite app_nil_r. repeat split; lia. }
    split; [reflexivity|]. split; [intros ? ? []|]. intros [|? ?] ? ?; discriminate.
  - destruct (H o (or_introl eq_refl)) as (e & CE & V & OK). apply is_ok_inv in OK. destruct OK as (w0' & E0).
    destruct (parallel o e w0 w w0' R0 R CE C V E0) as (w' & l & E & M0 & M & VE).
    destruct (alone o e w w' R CE E) as (l' & M' & CC & VO).
    assert (R' : reachable w') by (eapply reachable_exec; eauto).
    assert (PD : paid w0 o = l) by (eapply moved_paid; eauto).
    simpl in ND. apply NoDup_cons_iff in ND. destruct ND as (NI & ND).
    assert (ST : step w o = w') by (unfold step; rewrite E; reflexivity).
    destruct (IH w' R' (eq_trans CC C) ND) as (A & K & MV & VN & VI & PP).
    { intros o1 I1. destruct (H o1 (or_intror I1)) as (e1 & C1 & V1 & O1). exists e1. split; [exact C1|].
      split; [|exact O1]. rewrite VO; [exact V1|]. intros ->. apply NI. rewrite CE, <- C1.
      apply (in_map collects). exact I1. }
    change (run w (o :: os)) with (run (step w o) os). rewrite ST.
    split; [simpl; rewrite E; exact A|]. split; [exact K|]. split.
    { simpl. rewrite PD. destruct M as (L1 & B1 & Q1 & S1), MV as (L2 & B2 & Q2 & S2).
      unfold moved. rewrite !net_app, L2, L1, B2, B1, Q2, Q1, S2, S1, app_assoc. repeat split; lia. }
    split. { intros e1 N1. simpl in N1. rewrite VN by tauto. apply VO. intros ->. apply N1. left. exact CE. }
    split.
    { intros o1 e1 [<-|I1] C1.
      - assert (e1 = e) by congruence. subst e1. rewrite VN by (rewrite <- CE; exact NI).
        rewrite VE. unfold step. rewrite E0. reflexivity.
      - apply VI; auto. }
    intros pre o1 post EQ. destruct pre as [|a pre].
    + simpl in EQ. injection EQ as <- <-. simpl. rewrite PD. eapply moved_paid; eauto.
    + simpl in EQ. injection EQ as <- EQ.
      change (run w (o :: pre)) with (run (step w o) pre). rewrite ST. eapply PP; eauto.
Qed.

(** Take instructions that collect different entitlements and each of which would succeed now. In
    whatever order they come, all of them succeed, each pays exactly what it would pay now, and the
    state afterwards is the same. *)
Theorem C78_any_order : forall w os os', reachable w ->
  NoDup (map collects os) ->
  (forall o, In o os -> collects o <> None /\ is_ok (exec w o) = true) ->
  Permutation os os' ->
  all_ok w os' = true
  /\ (forall pre o post, os' = pre ++ o :: post -> paid (run w pre) o = paid w o)
  /\ same_state (run w os) (run w os').
Proof.
  intros w os os' R ND H P.
  assert (H1 : forall o, In o os -> exists e, collects o = Some e /\ view e w = view e w /\ is_ok (exec w o) = true).
  { intros o IN. destruct (H o IN) as (C & OK). destruct (collects o) as [e|]; [|congruence]. eauto. }
  assert (H2 : forall o, In o os' -> exists e, collects o = Some e /\ view e w = view e w /\ is_ok (exec w o) = true).
  { intros o IN. apply H1. eapply Permutation_in; [apply Permutation_sym; exact P|exact IN]. }
  assert (ND' : NoDup (map collects os')).
  { eapply Permutation_NoDup; [|exact ND]. apply Permutation_map. exact P. }
  destruct (collect_all w os R w R eq_refl ND H1) as (A1 & K1 & M1 & N1 & V1 & P1).
  destruct (collect_all w os' R w R eq_refl ND' H2) as (A2 & K2 & M2 & N2 & V2 & P2).
  split; [exact A2|]. split; [exact P2|].
  assert (PF : Permutation (flat_map (paid w) os) (flat_map (paid w) os')) by (apply Permutation_flat_map; exact P).
  destruct M1 as (L1 & B1 & Q1 & S1), M2 as (L2 & B2 & Q2 & S2).
  split; [|rewrite L1, L2; apply Permutation_app_head; exact PF].
  apply same_parts; try (apply reachable_inv, reachable_run; exact R).
  - congruence.
  - intros e. destruct (in_dec (fun a b : option entitlement => ltac:(decide equality; decide equality) : {a = b} + {a <> b})
      (Some e) (map collects os)) as [IN|NI].
    + apply in_map_iff in IN. destruct IN as (o & C & IN). rewrite (V1 o e IN C). symmetry. apply V2; [|exact C].
      eapply Permutation_in; eauto.
    + rewrite N1 by exact NI. rewrite N2; [reflexivity|]. intros X. apply NI.
      eapply Permutation_in; [|exact X]. apply Permutation_map, Permutation_sym. exact P.
  - rewrite B1, B2, (net_perm _ _ _ PF). reflexivity.
  - rewrite Q1, Q2, (net_perm _ _ _ PF). reflexivity.
  - rewrite S1, S2, (net_perm _ _ _ PF). reflexivity.
Qed.

(** Pool A right after its migration, nothing of the surplus and migration fees collected yet. *)
Definition order_hist : list op :=
  histA1 ++ histA2
  ++ [ OCreateOperator 99 88 3; OCreateLocker;
       OMigrateV2 (mkExt true 20000000000000 40000000000 20000000000000 40000000000
                      (2 ^ 100) 1000000000 1000000000 true) 1700001000 ].
Definition order_ops : list op :=
  [ OClaimPartner 22 22 5 100000; OClaimCreator 44 44 U64_MAX 7; OZap 88 1000000 false true true;
    OPartnerSurplus 22 22; OCreatorSurplus 44 44; OMigrationFee 22 22 0; OMigrationFee 44 44 1;
    OLeftover; OPartnerCreationFee 22 22; OProtocolCreationFee 88 ].
Example C78_case : let w := run wA order_hist in
  reachable w /\ NoDup (map collects order_ops)
  /\ (forall o, In o order_ops -> collects o <> None /\ is_ok (exec w o) = true)
  /\ forallb (fun o => match paid w o with [] => false | _ => true end) order_ops = true
  /\ Permutation order_ops (rev order_ops).
Proof.
  cbv zeta. split; [apply reachable_run; exists wA, []; split; [exact initialA|reflexivity]|].
  split. { repeat (constructor; [simpl; intuition discriminate|]). constructor. }
  split.
  { intros o IN.
    assert (T : forallb (fun o => match collects o with Some _ => is_ok (exec (run wA order_hist) o) | None => false end)
        order_ops = true) by (vm_compute; reflexivity).
    rewrite forallb_forall in T. specialize (T o IN). destruct (collects o); [|discriminate T].
    split; [discriminate|exact T]. }
  split; [vm_compute; reflexivity|apply Permutation_rev].
Qed.

Print Assumptions C78_any_order.
Print Assumptions C40_zap.
