(** * C67: what the emitted events tell. *)
From Coq Require Import ZArith QArith List Bool Lia ZifyBool.
From Verif Require Import Base MathModel CurveModel FeeModel ConfigModel PoolModel TxModel SystemModel
  Spec SpecHist Lib CurveProofs CurveLoops Potential CalcProofs ConfigProofs FeeProofs SwapProofs
  InvProofs InvOps InvReach Effects Frame Bounds Fixtures FixturesReach PropFees EventModel.
Import ListNotations.
Open Scope Z_scope.
#[local] Arguments Z.pow : simpl never.
#[local] Arguments Z.testbit : simpl never.

(** ** Specification: how a reader of the events uses them *)

Definition amount_of (a t : token) (x : Z) : Z := if same_token a t then x else 0.

(** The tokens an event says have come into the accounts of the pool (negative: have left). *)
Definition told (c : config) (t : token) (e : event) : Z :=
  match e with
  | EvSwap2 d has_referral _ _ _ r _ _ _ =>
      amount_of (token_in d) t (sr_included r) - amount_of (token_out d) t (sr_output r)
      - (if has_referral then amount_of (charge_token c d) t (sr_referral r) else 0)
  | EvClaimProtocolFee b q | EvClaimTradingFee b q | EvClaimCreatorTradingFee b q =>
      - amount_of TBase t b - amount_of TQuote t q
  | EvPartnerWithdrawSurplus x | EvCreatorWithdrawSurplus x | EvWithdrawMigrationFee x _ =>
      - amount_of TQuote t x
  | EvWithdrawLeftover _ x => - amount_of TBase t x
  | EvClaimPoolCreationFee x | EvPartnerClaimPoolCreationFee _ x _ => - amount_of TSol t x
  | EvSwap _ _ _ _ _ _ _ _ _ _ _ _ | EvCurveComplete _ _ | EvCreateMigrationMetadata
  | EvUpdatePoolCreator _ _ => 0
  end.
Fixpoint sum (f : event -> Z) (l : list event) : Z :=
  match l with [] => 0 | e :: r => f e + sum f r end.

(** Instructions without events. *)
Definition silent (o : op) : bool :=
  match o with
  | OZap _ _ _ _ _ | OCreateLocker | OMigrateV1 _ _ | OMigrateV2 _ _ | OLockLp _ | OClaimLp _
  | OCreateOperator _ _ _ | OCloseOperator _ _ | ODonateBase _ _ | ODonateQuote _ _ | ODonateSol _ _
  | OMint _ _ _ | OBurn _ _ => true
  | _ => false
  end.

(** What an indexer keeps about a pool: reserves, price, creator, whether it has traded, when the curve
    was completed, unclaimed trading fees of the partner and the creator, lifetime fees, and which
    one-time payments have been made. *)
Record book := mkBook {
  b_base : Z; b_quote : Z; b_price : Z; b_creator : Z; b_traded : Z; b_finish : Z;
  b_partner_base : Z; b_partner_quote : Z; b_creator_base : Z; b_creator_quote : Z;
  b_trading_base : Z; b_trading_quote : Z; b_protocol_base : Z; b_protocol_quote : Z;
  b_partner_surplus : Z; b_creator_surplus : Z; b_leftover : Z; b_migration_fee : Z; b_creation_fee : Z }.

(** The same, read from the pool account. *)
Definition book_of (p : pool) : book :=
  mkBook (p_base p) (p_quote p) (p_price p) (p_creator p) (p_has_swap p) (p_finish p)
    (p_partner_base p) (p_partner_quote p) (p_creator_base p) (p_creator_quote p)
    (p_m_trading_base p) (p_m_trading_quote p) (p_m_protocol_base p) (p_m_protocol_quote p)
    (p_partner_surplus p) (p_creator_surplus p) (p_leftover p) (p_mig_fee_status p) (p_creation_bits p).

(** How the indexer updates it. Fees charged on the output token leave the curve with the output. *)
Definition left_curve (c : config) (d : direction) (r : swap_result) : Z :=
  sr_output r + (if same_token (charge_token c d) (token_out d)
                 then sr_trading r + sr_protocol r + sr_referral r else 0).
Definition note (c : config) (b : book) (e : event) : book :=
  match e with
  | EvSwap2 d _ _ _ _ r q threshold time =>
      let out := left_curve c d r in
      let base := match d with QuoteToBase => b_base b - out | BaseToQuote => b_base b + sr_excluded r end in
      let quote := match d with QuoteToBase => b_quote b + sr_excluded r | BaseToQuote => b_quote b - out end in
      let cf := sr_trading r * c_creator_trading_fee_pct c / 100 in
      let pf := sr_trading r - cf in
      let ft := charge_token c d in
      mkBook base quote (sr_price r) (b_creator b) 1 (if threshold <=? q then time else b_finish b)
        (b_partner_base b + on ft TBase pf) (b_partner_quote b + on ft TQuote pf)
        (b_creator_base b + on ft TBase cf) (b_creator_quote b + on ft TQuote cf)
        (b_trading_base b + on ft TBase (sr_trading r)) (b_trading_quote b + on ft TQuote (sr_trading r))
        (b_protocol_base b + on ft TBase (sr_protocol r)) (b_protocol_quote b + on ft TQuote (sr_protocol r))
        (b_partner_surplus b) (b_creator_surplus b) (b_leftover b) (b_migration_fee b) (b_creation_fee b)
  | EvClaimTradingFee x y =>
      mkBook (b_base b) (b_quote b) (b_price b) (b_creator b) (b_traded b) (b_finish b)
        (b_partner_base b - x) (b_partner_quote b - y) (b_creator_base b) (b_creator_quote b)
        (b_trading_base b) (b_trading_quote b) (b_protocol_base b) (b_protocol_quote b)
        (b_partner_surplus b) (b_creator_surplus b) (b_leftover b) (b_migration_fee b) (b_creation_fee b)
  | EvClaimCreatorTradingFee x y =>
      mkBook (b_base b) (b_quote b) (b_price b) (b_creator b) (b_traded b) (b_finish b)
        (b_partner_base b) (b_partner_quote b) (b_creator_base b - x) (b_creator_quote b - y)
        (b_trading_base b) (b_trading_quote b) (b_protocol_base b) (b_protocol_quote b)
        (b_partner_surplus b) (b_creator_surplus b) (b_leftover b) (b_migration_fee b) (b_creation_fee b)
  | EvPartnerWithdrawSurplus _ =>
      mkBook (b_base b) (b_quote b) (b_price b) (b_creator b) (b_traded b) (b_finish b)
        (b_partner_base b) (b_partner_quote b) (b_creator_base b) (b_creator_quote b)
        (b_trading_base b) (b_trading_quote b) (b_protocol_base b) (b_protocol_quote b)
        1 (b_creator_surplus b) (b_leftover b) (b_migration_fee b) (b_creation_fee b)
  | EvCreatorWithdrawSurplus _ =>
      mkBook (b_base b) (b_quote b) (b_price b) (b_creator b) (b_traded b) (b_finish b)
        (b_partner_base b) (b_partner_quote b) (b_creator_base b) (b_creator_quote b)
        (b_trading_base b) (b_trading_quote b) (b_protocol_base b) (b_protocol_quote b)
        (b_partner_surplus b) 1 (b_leftover b) (b_migration_fee b) (b_creation_fee b)
  | EvWithdrawLeftover _ _ =>
      mkBook (b_base b) (b_quote b) (b_price b) (b_creator b) (b_traded b) (b_finish b)
        (b_partner_base b) (b_partner_quote b) (b_creator_base b) (b_creator_quote b)
        (b_trading_base b) (b_trading_quote b) (b_protocol_base b) (b_protocol_quote b)
        (b_partner_surplus b) (b_creator_surplus b) 1 (b_migration_fee b) (b_creation_fee b)
  | EvUpdatePoolCreator _ new =>
      mkBook (b_base b) (b_quote b) (b_price b) new (b_traded b) (b_finish b)
        (b_partner_base b) (b_partner_quote b) (b_creator_base b) (b_creator_quote b)
        (b_trading_base b) (b_trading_quote b) (b_protocol_base b) (b_protocol_quote b)
        (b_partner_surplus b) (b_creator_surplus b) (b_leftover b) (b_migration_fee b) (b_creation_fee b)
  | EvWithdrawMigrationFee _ flag =>
      mkBook (b_base b) (b_quote b) (b_price b) (b_creator b) (b_traded b) (b_finish b)
        (b_partner_base b) (b_partner_quote b) (b_creator_base b) (b_creator_quote b)
        (b_trading_base b) (b_trading_quote b) (b_protocol_base b) (b_protocol_quote b)
        (b_partner_surplus b) (b_creator_surplus b) (b_leftover b)
        (b_migration_fee b + (if flag =? 0 then 4 else 2)) (b_creation_fee b)
  | EvClaimPoolCreationFee _ =>
      mkBook (b_base b) (b_quote b) (b_price b) (b_creator b) (b_traded b) (b_finish b)
        (b_partner_base b) (b_partner_quote b) (b_creator_base b) (b_creator_quote b)
        (b_trading_base b) (b_trading_quote b) (b_protocol_base b) (b_protocol_quote b)
        (b_partner_surplus b) (b_creator_surplus b) (b_leftover b) (b_migration_fee b)
        (if Z.testbit (b_creation_fee b) 0 then b_creation_fee b else b_creation_fee b + 1)
  | EvPartnerClaimPoolCreationFee _ _ _ =>
      mkBook (b_base b) (b_quote b) (b_price b) (b_creator b) (b_traded b) (b_finish b)
        (b_partner_base b) (b_partner_quote b) (b_creator_base b) (b_creator_quote b)
        (b_trading_base b) (b_trading_quote b) (b_protocol_base b) (b_protocol_quote b)
        (b_partner_surplus b) (b_creator_surplus b) (b_leftover b) (b_migration_fee b)
        (b_creation_fee b + 2)
  | EvSwap _ _ _ _ _ _ _ _ _ _ _ _ | EvCurveComplete _ _ | EvClaimProtocolFee _ _
  | EvCreateMigrationMetadata => b
  end.

(** ** Swaps *)

Lemma fee_token_of c d hr fm : get_fee_mode (c_collect_fee_mode c) d hr = Ok fm ->
  (fm_on_base fm = true /\ charge_token c d = TBase \/ fm_on_base fm = false /\ charge_token c d = TQuote)
  /\ fm_on_input fm = negb (same_token (charge_token c d) (token_out d)) /\ fm_referral fm = hr.
Proof.
  unfold get_fee_mode. intros FM. apply bind_ok in FM. destruct FM as (cm & CM & FM).
  apply Ok_inj in FM. unfold collect_of in CM. unfold charge_token.
  destruct (c_collect_fee_mode c =? 0) eqn:C0.
  - apply Ok_inj in CM. subst cm. replace (_ =? 1) with false by lia.
    destruct d; subst fm; auto.
  - destruct (c_collect_fee_mode c =? 1) eqn:C1; [|discriminate].
    apply Ok_inj in CM. subst cm. destruct d; subst fm; auto.
Qed.

Lemma swap_told w a w' : Inv w -> exec w (OSwap a) = Ok w' ->
  exists r fm num fee gross pf cf cur,
    swap_full w a = Ok (w', r) /\ receipt w (OSwap a) = Some (a, r)
    /\ swap_effect w w' a fm r num fee gross pf cf cur
    /\ eff w w' (w_pool w') (swap_log a fm r)
    /\ exists p1, update_pre_swap (w_config w) (w_pool w) (sa_now a) = Ok p1
    /\ process_swap (w_config w) p1 (sa_mode a) (sa_amount0 a) (sa_amount1 a) fm (sa_dir a) cur
         (first_swap_eligible (w_config w) (w_pool w) (w_key w) (is_some (sa_referral a))
            (sa_view a)) = Ok r.
Proof.
  intros I H. destruct (receipt_swap _ _ _ H) as (r & S & RC).
  pose proof (created_cfg_ok _ (iv_created _ I)) as K.
  pose proof (created_fees_ok _ (iv_created _ I)) as F.
  pose proof (exec_args _ _ _ H) as A. simpl in A. repeat rewrite andb_true_iff in A.
  destruct A as (((A0 & A1) & _) & _). apply u64b_ok in A0, A1. destruct A0 as (A0 & _), A1 as (A1 & _).
  pose proof S as S0. apply swap_full_effect in S; auto; [|apply (iv_price _ I)].
  destruct S as (fm & num & fee & gross & pf & cf & cur & p1 & E & PRE & PS).
  exists r, fm, num, fee, gross, pf, cf, cur.
  split; [exact S0|]. split; [exact RC|]. split; [exact E|]. split; [|exists p1; auto].
  destruct (swap_log_net a fm r (or_intror Logic.I)) as (N1 & N2 & N3).
  pose proof (se_same _ _ _ _ _ _ _ _ _ _ _ E) as SM.
  constructor.
  - reflexivity.
  - apply (se_log _ _ _ _ _ _ _ _ _ _ _ E).
  - rewrite SM. reflexivity.
  - rewrite SM. reflexivity.
  - rewrite (se_bvault _ _ _ _ _ _ _ _ _ _ _ E), N1. lia.
  - rewrite (se_qvault _ _ _ _ _ _ _ _ _ _ _ E), N2. lia.
  - rewrite N3, SM. simpl. lia.
Qed.

Lemma sum_app f a b : sum f (a ++ b) = sum f a + sum f b.
Proof. induction a; simpl; lia. Qed.

Lemma emits_ok w o w' : exec w o = Ok w' -> emits w o = events_of w o.
Proof. intros H. unfold emits. rewrite H. reflexivity. Qed.

Lemma told_swap w a w' t : Inv w -> exec w (OSwap a) = Ok w' ->
  net t (moved w (OSwap a)) = sum (told (w_config w) t) (emits w (OSwap a)).
Proof.
  intros I H. destruct (swap_told _ _ _ I H) as (r & fm & num & fee & gross & pf & cf & cur & S & _ & E & EF & _).
  rewrite (moved_ok _ _ _ _ H (ef_log _ _ _ _ EF)), (emits_ok _ _ _ H). unfold events_of. rewrite S.
  pose proof (se_fm _ _ _ _ _ _ _ _ _ _ _ E) as FM. apply fee_token_of in FM. destruct FM as (FT & _ & _).
  unfold swap_events. destruct (legacy_params _ _ _ _) as (pin & pmin). rewrite sum_app. cbn [sum told].
  replace (sum (told (w_config w) t) (if is_curve_complete _ _ then _ else _)) with 0
    by (destruct (is_curve_complete _ _); reflexivity).
  unfold swap_log, fee_token, in_token, out_token, token_in, token_out, amount_of.
  destruct FT as [(-> & ->)|(-> & ->)]; destruct (sa_dir a), (sa_referral a), t; cbn; lia.
Qed.

(** ** The other instructions *)

Ltac opn H u := apply bind_ok in H; destruct H as (u & ? & H).

(** The value computed by a step of the handler is the one in the event. *)
Lemma other_events w o w' : Inv w -> exec w o = Ok w' -> silent o = false ->
  (forall a, o <> OSwap a) ->
  exists p' l, eff w w' p' l
    /\ (forall t, net t l = sum (told (w_config w) t) (events_of w o))
    /\ book_of p' = fold_left (note (w_config w)) (events_of w o) (book_of (w_pool w)).
Proof.
  intros I H SI NS. pose proof (created_cfg_ok _ (iv_created _ I)) as K.
  pose proof (exec_args _ _ _ H) as A.
  destruct o; try discriminate SI; try (exfalso; eapply NS; reflexivity);
    unfold exec in H; rewrite A in H; cbn [require bind] in H; cbn [events_of].
  - pose proof H as H0. apply partner_eff in H0. cbv zeta in H0. destruct H0 as (_ & E & _).
    unfold claim_partner_fee in H. opn H u. apply bind_ok in H. destruct H as (((p & x) & y) & CL & _).
    rewrite CL. unfold claim_partner_trading_fee in CL. cbv zeta in CL. opn CL z1. opn CL z2.
    apply Ok_inj in CL. apply pair_inj in CL. destruct CL as (CL & <-). apply pair_inj in CL. destruct CL as (_ & <-).
    do 2 eexists. split; [exact E|]. split; [|reflexivity].
    intros t. unfold amount_of. destruct t; cbn -[Z.min]; lia.
  - pose proof H as H0. apply creator_eff in H0. cbv zeta in H0. destruct H0 as (_ & E & _).
    unfold claim_creator_fee in H. opn H u. apply bind_ok in H. destruct H as (((p & x) & y) & CL & _).
    rewrite CL. unfold claim_creator_trading_fee in CL. cbv zeta in CL. opn CL z1. opn CL z2.
    apply Ok_inj in CL. apply pair_inj in CL. destruct CL as (CL & <-). apply pair_inj in CL. destruct CL as (_ & <-).
    do 2 eexists. split; [exact E|]. split; [|reflexivity].
    intros t. unfold amount_of. destruct t; cbn -[Z.min]; lia.
  - simpl in A. rewrite andb_true_iff in A. destruct A as (A0 & A1). apply u64b_ok in A0, A1.
    destruct A0 as (A0 & _), A1 as (A1 & _).
    pose proof (iv_nonneg _ I) as (N1 & N2 & N3 & N4 & N5 & N6 & N7 & N8 & N9 & N10).
    pose proof H as H0. apply protocol_eff in H0; auto. cbv zeta in H0.
    destruct H0 as (_ & p' & E & _ & a1 & b1 & a2 & b2 & S1 & S2 & _ & _ & _ & _ & PE).
    unfold claim_protocol_fee in H. opn H u.
    apply bind_ok in H. destruct H as ([p1 x] & CB & H). rewrite CB.
    apply claim_base_ok in CB; auto. destruct CB as (d1 & e1 & G1 & G2 & D1 & X1 & EP1).
    opn H w1. apply bind_ok in H. destruct H as ([p2 y] & CQ & _). rewrite CQ.
    unfold claim_protocol_quote_fee_and_surplus in CQ.
    apply bind_ok in CQ. destruct CQ as ([p3 am] & CQ1 & CQ).
    apply claim_quote_ok in CQ1; auto; try (rewrite EP1; simpl; auto; fail).
    destruct CQ1 as (d2 & e2 & D2 & E2 & F2 & Y2 & EP3).
    assert (EQ : p_protocol_quote p1 = p_protocol_quote (w_pool w) /\ p_mig_quote_fee p1 = p_mig_quote_fee (w_pool w)
       /\ p_protocol_surplus p3 = p_protocol_surplus (w_pool w) /\ p_quote p3 = p_quote (w_pool w)).
    { rewrite EP3, EP1. auto. }
    destruct EQ as (Q1 & Q2 & Q3 & Q4). rewrite Q1, Q2 in *. rewrite Q3 in CQ.
    unfold is_curve_complete in CQ. rewrite Q4 in CQ.
    exists p'. eexists. split; [exact E|].
    set (ps := (p_protocol_surplus (w_pool w) =? 0) && (c_threshold (w_config w) <=? p_quote (w_pool w))) in *.
    set (z := if ps then surplus_protocol (w_config w) (p_quote (w_pool w)) else 0).
    assert (YZ : y = Z.min maxq (p_protocol_quote (w_pool w) + p_mig_quote_fee (w_pool w)) + z /\ 0 <= y).
    { unfold z. destruct ps eqn:PS.
      - unfold ps in PS. pose proof (surplus_parts _ (p_quote (w_pool w)) K ltac:(lia)) as (_ & _ & S3 & _).
        apply bind_ok in CQ. destruct CQ as (sp & SP & CQ).
        pose proof (protocol_surplus_eq _ _ _ SP) as SE. rewrite Q4 in SE.
        apply bind_ok in CQ. destruct CQ as (tt & TT & CQ). apply sadd_ok in TT.
        apply Ok_inj in CQ. apply pair_inj in CQ. destruct CQ as (_ & <-). split; lia.
      - apply Ok_inj in CQ. apply pair_inj in CQ. destruct CQ as (_ & <-). split; lia. }
    split.
    + intros t. cbn [sum told]. rewrite <- (proj1 YZ). fold z.
      replace (Z.min maxb (p_protocol_base (w_pool w) + p_mig_base_fee (w_pool w))) with x by lia.
      unfold amount_of. destruct (0 <? x) eqn:L1, (0 <? y) eqn:L2, t; cbn; lia.
    + rewrite PE. cbn [fold_left note]. destruct ps; reflexivity.
  - pose proof H as H0. apply partner_surplus_eff in H0; auto. destruct H0 as (_ & CC & _ & E & _).
    unfold withdraw_partner_surplus in H. cbv zeta in H. opn H u. opn H u1. opn H u2.
    apply bind_ok in H. destruct H as (x & X & _). rewrite X.
    apply partner_surplus_eq in X; auto. subst x.
    do 2 eexists. split; [exact E|]. split; [|reflexivity].
    intros t. unfold amount_of. destruct t; cbn -[surplus_partner]; lia.
  - pose proof H as H0. apply creator_surplus_eff in H0; auto. destruct H0 as (_ & CC & _ & E & _).
    unfold withdraw_creator_surplus in H. cbv zeta in H. opn H u. opn H u1. opn H u2.
    apply bind_ok in H. destruct H as (x & X & _). rewrite X.
    apply creator_surplus_eq in X; auto. subst x.
    do 2 eexists. split; [exact E|]. split; [|reflexivity].
    intros t. unfold amount_of. destruct t; cbn -[surplus_creator]; lia.
  - pose proof H as H0. apply migration_fee_eff in H0; auto. destruct H0 as (_ & _ & C).
    unfold withdraw_migration_fee in H. cbv zeta in H. opn H u.
    apply bind_ok in H. destruct H as ((pf & cf) & X & _). rewrite X.
    apply mig_fee_dist_eq in X; auto. destruct X as (-> & ->).
    destruct C as [(-> & _ & _ & E)|(-> & _ & _ & E)]; do 2 eexists; (split; [exact E|]); (split; [|reflexivity]);
    intros t; unfold amount_of; destruct t; cbn -[migration_fee_partner migration_fee_creator]; lia.
  - pose proof H as H0. apply leftover_eff in H0. destruct H0 as (_ & _ & _ & E & _).
    unfold withdraw_leftover in H. cbv zeta in H. opn H u. opn H u1. opn H u2.
    apply bind_ok in H. destruct H as (fees & FE & H). rewrite FE. apply fees_sum_eq in FE.
    apply bind_ok in H. destruct H as (x & X & H). cbn [bind]. rewrite X. apply ssub_ok in X.
    apply bind_ok in H. destruct H as (y & Y & H). cbn [bind]. rewrite Y. apply ssub_ok in Y.
    do 2 eexists. split; [exact E|]. split; [|reflexivity].
    intros t. unfold amount_of. destruct t; cbn; lia.
  - pose proof H as H0. apply partner_cf_eff in H0; auto. cbv zeta in H0. destruct H0 as (_ & _ & _ & E & _).
    unfold claim_partner_creation_fee in H. cbv zeta in H. opn H u.
    apply bind_ok in H. destruct H as ((x & y) & X & _). rewrite X. apply creation_split_eq in X.
    destruct X as (_ & ->). cbn [snd].
    do 2 eexists. split; [exact E|]. split; [|reflexivity].
    intros t. unfold amount_of. destruct t; cbn -[creation_fee_protocol]; lia.
  - pose proof H as H0. apply protocol_cf_eff in H0; auto. cbv zeta in H0. destruct H0 as (_ & E & _).
    rewrite (iv_legacy _ I). change (negb (bit_unset 0 LEGACY_CHARGED_MASK)) with false. cbn [andb].
    assert (BU : bit_unset (p_creation_bits (w_pool w)) PROTOCOL_CREATION_FEE_MASK
                 = negb (Z.testbit (p_creation_bits (w_pool w)) 0)).
    { destruct (iv_cbits _ I) as [X|[X|[X|X]]]; rewrite X; reflexivity. }
    rewrite BU in *.
    unfold claim_protocol_creation_fee in H. cbv zeta in H. opn H u. rewrite BU in H.
    destruct (Z.testbit (p_creation_bits (w_pool w)) 0) eqn:TB; cbn [negb] in *.
    + do 2 eexists. split; [exact E|]. split.
      * intros t. destruct t; reflexivity.
      * cbn [fold_left note book_of b_creation_fee]. rewrite TB. reflexivity.
    + opn H z1. match goal with X : (do _ <- _ ;; _) = Ok z1 |- _ => opn X z2 end.
      match goal with X : split_pool_creation_fee _ = _ |- _ => rewrite X; cbn [bind]; destruct z2 as (x & y);
        apply creation_split_eq in X; destruct X as (-> & _) end. cbn [fst].
      assert (0 <= creation_fee_protocol (w_config w)) 
        by (unfold creation_fee_protocol; pose proof (ok_pcf _ K); apply div_nonneg; lia).
      do 2 eexists. split; [exact E|]. split.
      * intros t. destruct (0 <? creation_fee_protocol (w_config w)) eqn:G; unfold amount_of;
          destruct t; cbn -[creation_fee_protocol]; lia.
      * cbn [fold_left note book_of b_creation_fee]. rewrite TB. reflexivity.
  - apply transfer_creator_eff in H. destruct H as (_ & _ & _ & _ & E & _).
    do 2 eexists. split; [exact E|]. split; [|reflexivity]. intros t. reflexivity.
  - apply metadata_eff in H. destruct H as (_ & _ & E & _).
    do 2 eexists. split; [exact E|]. split; [|reflexivity]. intros t. reflexivity.
Qed.

(** ** C67 *)

(** The token movements of every instruction that emits events are exactly those the events tell. *)
Theorem C67_events_tell_payments : forall w o w' t,
  reachable w -> exec w o = Ok w' -> silent o = false ->
  net t (moved w o) = sum (told (w_config w) t) (emits w o).
Proof.
  intros w o w' t R H SI. pose proof (reachable_inv _ R) as I.
  assert (D : (exists a, o = OSwap a) \/ forall a, o <> OSwap a)
    by (destruct o; eauto; right; intros; discriminate).
  destruct D as [(a & ->)|N].
  - apply told_swap with w'; auto.
  - destruct (other_events _ _ _ I H SI N) as (p' & l & E & T & _).
    rewrite (moved_ok _ _ _ _ H (ef_log _ _ _ _ E)), (emits_ok _ _ _ H). apply T.
Qed.

(** ** Replay *)
Lemma fold_swap_events c b d hr a0 a1 m r q th time (l : list event) x :
  (forall e, In e l -> exists x y, e = EvCurveComplete x y) ->
  (exists y1 y2 y3 y4 y5 y6 y7 y8 y9 y10 y11 y12, x = EvSwap y1 y2 y3 y4 y5 y6 y7 y8 y9 y10 y11 y12) ->
  fold_left (note c) ([x; EvSwap2 d hr a0 a1 m r q th time] ++ l) b
  = note c b (EvSwap2 d hr a0 a1 m r q th time).
Proof.
  intros L (y1 & y2 & y3 & y4 & y5 & y6 & y7 & y8 & y9 & y10 & y11 & y12 & ->).
  rewrite fold_left_app. cbn [fold_left]. set (b' := note c _ (EvSwap2 _ _ _ _ _ _ _ _ _)).
  change (fold_left (note c) l b' = b').
  clearbody b'. revert b'. induction l as [|e l IH]; intros b'; [reflexivity|].
  cbn [fold_left]. rewrite IH by (intros; apply L; right; auto).
  destruct (L e (or_introl eq_refl)) as (u & v & ->). reflexivity.
Qed.

Lemma swap_note w a w' : Inv w -> exec w (OSwap a) = Ok w' ->
  book_of (w_pool w') = fold_left (note (w_config w)) (emits w (OSwap a)) (book_of (w_pool w)).
Proof.
  intros I H. destruct (swap_told _ _ _ I H) as (r & fm & num & fee & gross & pf & cf & cur & S & _ & E & EF & _).
  pose proof (created_cfg_ok _ (iv_created _ I)) as K.
  rewrite (emits_ok _ _ _ H). unfold events_of. rewrite S. unfold swap_events.
  destruct (legacy_params _ _ _ _) as (pin & pmin).
  rewrite fold_swap_events.
  2: { intros e. destruct (is_curve_complete _ _); [intros [<-|[]]; eauto|intros []]. }
  2: { do 12 eexists. reflexivity. }
  pose proof (se_fm _ _ _ _ _ _ _ _ _ _ _ E) as FM. apply fee_token_of in FM. destruct FM as (FT & FI & FR).
  pose proof (se_facts _ _ _ _ _ _ _ _ _ _ _ E) as SF.
  pose proof (sf_parts _ _ _ _ _ _ _ _ SF) as (T1 & T2 & T3).
  pose proof (sf_fee_nonneg _ _ _ _ _ _ _ _ SF) as FN.
  pose proof (sf_out _ _ _ _ _ _ _ _ SF) as GO.
  destruct (se_pool _ _ _ _ _ _ _ _ _ _ _ E) as (p2 & AP & PG & FN2 & C).
  destruct AP as [SP PR HS BA QU _ _ _ _ PB PQ CB CQ RB RQ MPB MPQ MTB MTQ SR].
  destruct SR as [s1 s2 s3 s4 s5 s6 s7 s8 s9 s10 s11 s12 s13].
  assert (TN : 0 <= sr_trading r).
  { rewrite T1. clear - FN. assert (fee * 20 / 100 <= fee) by (apply Z.div_le_upper_bound; lia). lia. }
  apply split_pc_ok in SP; [|lia|apply (ok_ctf _ K)]. destruct SP as (CF & PF & _ & _).
  assert (EC : w_config w' = w_config w) by (rewrite (se_same _ _ _ _ _ _ _ _ _ _ _ E); reflexivity).
  assert (Q2 : p_quote (w_pool w') = p_quote p2) by (destruct C as [(_ & ->)|(_ & _ & ->)]; reflexivity).
  assert (LC : left_curve (w_config w) (sa_dir a) r = gross).
  { unfold left_curve. rewrite GO, FI. destruct (same_token _ _); cbn [negb]; [|lia]. lia. }
  cbn [note]. rewrite LC, <- CF, EC, Q2.
  replace (sr_trading r - cf) with pf by lia.
  assert (B2 : book_of (w_pool w') = mkBook (p_base p2) (p_quote p2) (p_price p2) (p_creator p2) 1
     (if c_threshold (w_config w) <=? p_quote p2 then sa_now a else p_finish (w_pool w))
     (p_partner_base p2) (p_partner_quote p2) (p_creator_base p2) (p_creator_quote p2)
     (p_m_trading_base p2) (p_m_trading_quote p2) (p_m_protocol_base p2) (p_m_protocol_quote p2)
     (p_partner_surplus p2) (p_creator_surplus p2) (p_leftover p2) (p_mig_fee_status p2) (p_creation_bits p2)).
  { destruct C as [(L & ->)|(L & _ & ->)].
    - replace (_ <=? _) with false by lia. unfold book_of. rewrite HS, FN2. reflexivity.
    - replace (_ <=? _) with true by lia. unfold book_of. cbn. rewrite HS. reflexivity. }
  rewrite B2.
  rewrite BA, QU, PR, PB, PQ, CB, CQ, MPB, MPQ, MTB, MTQ, s1.
  unfold book_of. cbn [b_base b_quote b_price b_creator b_traded b_finish b_partner_base b_partner_quote
    b_creator_base b_creator_quote b_trading_base b_trading_quote b_protocol_base b_protocol_quote
    b_partner_surplus b_creator_surplus b_leftover b_migration_fee b_creation_fee].
  unfold fi_db, fi_dq.
  destruct FT as [(-> & ->)|(-> & ->)]; destruct (sa_dir a); cbn [on]; f_equal; try lia; congruence.
Qed.

Lemma silent_book w o w' : Inv w -> exec w o = Ok w' -> silent o = true -> book_of (w_pool w') = book_of (w_pool w).
Proof.
  intros I H SI. pose proof (exec_args _ _ _ H) as A.
  destruct o; try discriminate SI; unfold exec in H; rewrite A in H; cbn [require bind] in H.
  - simpl in A. apply u64b_ok in A. destruct A as (A & _).
    apply zap_eff in H; auto. cbv zeta in H.
    destruct H as (_ & _ & _ & p' & E & _ & _ & a & b & _ & _ & _ & PE). rewrite (ef_pool _ _ _ _ E), PE.
    destruct base; [reflexivity|]. destruct (_ && _); reflexivity.
  - apply locker_eff in H. destruct H as (_ & E & _). rewrite (ef_pool _ _ _ _ E). reflexivity.
  - apply migrate_v1_eff in H. destruct H as (m & m' & fb & fq & eb & eq & b & mb & _ & _ & _ & _ & _ & E & _).
    rewrite (ef_pool _ _ _ _ E). reflexivity.
  - apply migrate_v2_eff in H. destruct H as (fb & fq & eb & eq & l2 & b & mb & h & _ & _ & _ & _ & _ & _ & _ & E & _).
    rewrite (ef_pool _ _ _ _ E). reflexivity.
  - apply lock_lp_eff in H.
    destruct H as (m & m' & a & P3 & M & M' & MP & _ & _ & _ & _ & E & _).
    rewrite (ef_pool _ _ _ _ E). reflexivity.
  - apply claim_lp_eff in H.
    destruct H as (m & m' & a & P3 & M & M' & MP & _ & _ & _ & _ & E & _).
    rewrite (ef_pool _ _ _ _ E). reflexivity.
  - unfold create_operator in H. apply bind_ok in H. destruct H as (u & _ & H).
    apply bind_ok in H. destruct H as (u1 & _ & H). apply bind_ok in H. destruct H as (u2 & _ & H).
    apply Ok_inj in H. subst w'. reflexivity.
  - unfold close_operator in H. apply bind_ok in H. destruct H as (u & _ & H).
    apply bind_ok in H. destruct H as (u1 & _ & H).
    apply Ok_inj in H. subst w'. reflexivity.
  - apply recv_base_eff in H. destruct H as (E & R). rewrite (ef_pool _ _ _ _ E). reflexivity.
  - apply recv_quote_eff in H. destruct H as (E & R). rewrite (ef_pool _ _ _ _ E). reflexivity.
  - apply Ok_inj in H. subst w'. reflexivity.
  - apply bind_ok in H. destruct H as (u & _ & H). apply bind_ok in H. destruct H as (t & _ & H).
    apply Ok_inj in H. subst w'. reflexivity.
  - apply bind_ok in H. destruct H as (u & _ & H). apply Ok_inj in H. subst w'. reflexivity.
Qed.

Lemma silent_emits w o : silent o = true -> emits w o = [].
Proof. intros S. unfold emits. destruct (exec w o); [|reflexivity]. destruct o; try discriminate S; reflexivity. Qed.

Lemma event_step w o : Inv w ->
  book_of (w_pool (step w o)) = fold_left (note (w_config w)) (emits w o) (book_of (w_pool w)).
Proof.
  intros I. unfold step. destruct (exec w o) as [w'|e] eqn:H.
  - destruct (silent o) eqn:S.
    + rewrite (silent_emits _ _ S). cbn [fold_left]. eapply silent_book; eauto.
    + assert (D : (exists a, o = OSwap a) \/ forall a, o <> OSwap a)
        by (destruct o; eauto; right; intros; discriminate).
      destruct D as [(a & ->)|N]; [eapply swap_note; eauto|].
      destruct (other_events _ _ _ I H S N) as (p' & l & E & _ & B).
      rewrite (ef_pool _ _ _ _ E), (emits_ok _ _ _ H). exact B.
  - unfold emits. rewrite H. reflexivity.
Qed.

Lemma config_step w o : Inv w -> w_config (step w o) = w_config w.
Proof.
  intros I. unfold step. destruct (exec w o) as [w'|] eqn:H; [|reflexivity].
  apply (fr_config _ _ (proj1 (exec_frame _ _ _ I H))).
Qed.
Lemma step_inv w o : Inv w -> Inv (step w o).
Proof. intros I. change (step w o) with (run w [o]). apply inv_run. exact I. Qed.

(** An indexer that only sees the events, and the config, ends with the same book as the account. *)
Theorem C67_replay : forall w ops, reachable w ->
  book_of (w_pool (run w ops)) = fold_left (note (w_config w)) (history w ops) (book_of (w_pool w)).
Proof.
  intros w ops R. apply reachable_inv in R. revert w R.
  induction ops as [|o ops IH]; intros w I; [reflexivity|].
  cbn [history]. rewrite fold_left_app, <- (event_step _ _ I), <- (config_step w o I).
  change (run w (o :: ops)) with (run (step w o) ops). apply IH. apply step_inv; auto.
Qed.

(** ** Completion *)
Definition is_completion (e : event) : bool := match e with EvCurveComplete _ _ => true | _ => false end.
Definition is_swap (e : event) : bool := match e with EvSwap2 _ _ _ _ _ _ _ _ _ => true | _ => false end.
Fixpoint times (f : event -> bool) (l : list event) : nat :=
  match l with [] => O | e :: r => ((if f e then 1 else 0) + times f r)%nat end.
Lemma times_app f a b : times f (a ++ b) = (times f a + times f b)%nat.
Proof. induction a; simpl; [reflexivity|]. rewrite IHa. lia. Qed.

Lemma other_no_swap w o : (forall a, o <> OSwap a) ->
  times is_completion (emits w o) = O /\ times is_swap (emits w o) = O.
Proof.
  intros N. unfold emits. destruct (exec w o); [|auto].
  destruct o; try (exfalso; eapply N; reflexivity); cbn [events_of];
  repeat match goal with
  | |- context [match ?x with _ => _ end] =>
      lazymatch x with context [match _ with _ => _ end] => fail | _ => destruct x end
  end; auto.
Qed.

Lemma times_in f l e : In e l -> f e = true -> times f l <> O.
Proof. induction l; simpl; [tauto|]. intros [<-|X] F; [rewrite F; lia|]. specialize (IHl X F). lia. Qed.

Lemma swap_emits w a w' : Inv w -> exec w (OSwap a) = Ok w' ->
  exists r x, emits w (OSwap a) =
    [x; EvSwap2 (sa_dir a) (is_some (sa_referral a)) (sa_amount0 a) (sa_amount1 a) (sa_mode a) r
        (p_quote (w_pool w')) (c_threshold (w_config w)) (sa_now a)]
    ++ (if c_threshold (w_config w) <=? p_quote (w_pool w')
        then [EvCurveComplete (p_base (w_pool w')) (p_quote (w_pool w'))] else [])
    /\ is_completion x = false /\ is_swap x = false.
Proof.
  intros I H. destruct (swap_told _ _ _ I H) as (r & fm & num & fee & gross & pf & cf & cur & S & _ & E & _).
  assert (EC : w_config w' = w_config w) by (rewrite (se_same _ _ _ _ _ _ _ _ _ _ _ E); reflexivity).
  rewrite (emits_ok _ _ _ H). unfold events_of. rewrite S. unfold swap_events, is_curve_complete.
  destruct (legacy_params _ _ _ _) as (pin & pmin). rewrite EC.
  exists r. eexists. split; [reflexivity|split; reflexivity].
Qed.

Lemma not_swap_progress w o w' : Inv w -> exec w o = Ok w' -> (forall a, o <> OSwap a) ->
  p_progress (w_pool w) = 0 -> p_progress (w_pool w') = 0.
Proof.
  intros I H N P. destruct (exec_frame _ _ _ I H) as (F & M).
  assert (M' : same_market (w_pool w) (w_pool w')).
  { destruct o; auto. exfalso. eapply N. reflexivity. }
  pose proof (step_inv w o I) as I'. unfold step in I'. rewrite H in I'.
  apply (iv_complete _ I'). rewrite (sk_quote _ _ M'), (fr_config _ _ F). apply (iv_complete _ I). exact P.
Qed.

(** The completion event marks the transaction that takes the pool out of the trading phase, with the
    final reserves. *)
Theorem C67_completion_event : forall w o w', reachable w -> exec w o = Ok w' ->
  (forall b q, In (EvCurveComplete b q) (emits w o) <->
     (p_progress (w_pool w) = 0 /\ p_progress (w_pool w') <> 0
      /\ b = p_base (w_pool w') /\ q = p_quote (w_pool w')))
  /\ forall b q, In (EvCurveComplete b q) (emits w o) -> c_threshold (w_config w) <= q.
Proof.
  intros w o w' R H. apply reachable_inv in R.
  assert (D : (exists a, o = OSwap a) \/ forall a, o <> OSwap a)
    by (destruct o; eauto; right; intros; discriminate).
  destruct D as [(a & ->)|N].
  - destruct (swap_emits _ _ _ R H) as (r & x & -> & X1 & X2).
    destruct (swap_mono _ _ _ R H) as (_ & P0 & _ & _ & C).
    assert (IN : forall b q, In (EvCurveComplete b q)
        ([x; EvSwap2 (sa_dir a) (is_some (sa_referral a)) (sa_amount0 a) (sa_amount1 a) (sa_mode a) r
            (p_quote (w_pool w')) (c_threshold (w_config w)) (sa_now a)]
         ++ (if c_threshold (w_config w) <=? p_quote (w_pool w')
             then [EvCurveComplete (p_base (w_pool w')) (p_quote (w_pool w'))] else []))
        <-> c_threshold (w_config w) <= p_quote (w_pool w')
            /\ b = p_base (w_pool w') /\ q = p_quote (w_pool w')).
    { intros b q. destruct (c_threshold (w_config w) <=? p_quote (w_pool w')) eqn:G; simpl; split.
      - intros [->|[X|[X|[]]]]; try discriminate. injection X as <- <-. repeat split; lia.
      - intros (_ & -> & ->). auto.
      - intros [->|[X|[]]]; discriminate.
      - intros (X & _). lia. }
    split.
    + intros b q. rewrite IN. split.
      * intros (T & B). split; [exact P0|]. split; [|exact B].
        destruct C as [(_ & Q & _)|(_ & _ & ->)]; [lia|]. destruct (has_vesting _); lia.
      * intros (_ & P & B). split; [|exact B]. destruct C as [(Q & _)|(Q & _)]; [congruence|exact Q].
    + intros b q X. apply IN in X. lia.
  - destruct (other_no_swap w o N) as (Z1 & _). split.
    + intros b q. split.
      * intros X. exfalso. exact (times_in is_completion _ _ X eq_refl Z1).
      * intros (P0 & P1 & _). exfalso. apply P1. eapply not_swap_progress; eauto.
    + intros b q X. exfalso. exact (times_in is_completion _ _ X eq_refl Z1).
Qed.

Lemma closed_history ops : forall w, Inv w -> p_progress (w_pool w) <> 0 ->
  times is_swap (history w ops) = O /\ times is_completion (history w ops) = O
  /\ p_progress (w_pool (run w ops)) <> 0.
Proof.
  induction ops as [|o ops IH]; intros w I P; [auto|].
  cbn [history]. rewrite !times_app. change (run w (o :: ops)) with (run (step w o) ops).
  assert (E : times is_swap (emits w o) = O /\ times is_completion (emits w o) = O
     /\ p_progress (w_pool (step w o)) <> 0).
  { unfold step. destruct (exec w o) as [w'|e] eqn:H.
    - destruct (exec_frame _ _ _ I H) as (F & _). pose proof (pm_progress _ _ (fr_pool _ _ F)).
      pose proof (iv_progress _ I).
      assert (D : (exists a, o = OSwap a) \/ forall a, o <> OSwap a)
        by (destruct o; eauto; right; intros; discriminate).
      destruct D as [(a & ->)|N].
      + destruct (swap_mono _ _ _ I H) as (_ & P0 & _). contradiction.
      + destruct (other_no_swap w o N). repeat split; auto. lia.
    - unfold emits. rewrite H. auto. }
  destruct E as (E1 & E2 & E3). destruct (IH _ (step_inv _ _ I) E3) as (F1 & F2 & F3).
  rewrite E1, E2, F1, F2. auto.
Qed.

(** In any history: at most one completion event, exactly one if the curve was completed in it, and no
    swap after it. *)
Theorem C67_completion_once : forall w ops, reachable w ->
  times is_completion (history w ops)
  = (if (p_progress (w_pool w) =? 0) && negb (p_progress (w_pool (run w ops)) =? 0) then 1%nat else 0%nat)
  /\ forall h1 b q h2, history w ops = h1 ++ EvCurveComplete b q :: h2 -> times is_swap h2 = O.
Proof.
  intros w ops R. apply reachable_inv in R. revert w R.
  induction ops as [|o ops IH]; intros w I.
  - cbn [history times run fold_left]. split; [destruct (_ =? 0); reflexivity|].
    intros [|? ?] b q h2 X; discriminate.
  - cbn [history]. change (run w (o :: ops)) with (run (step w o) ops).
    destruct (p_progress (w_pool w) =? 0) eqn:P0.
    2: { destruct (closed_history (o :: ops) w I ltac:(lia)) as (C1 & C2 & _).
         change (history w (o :: ops)) with (emits w o ++ history (step w o) ops) in *. split; [exact C2|].
         intros h1 b q h2 X. rewrite X, times_app in C1. simpl in C1. lia. }
    destruct (IH _ (step_inv w o I)) as (J1 & J2).
    destruct (exec w o) as [w'|e] eqn:H.
    2: { unfold step, emits in *. rewrite H in *. cbn [app]. rewrite P0 in J1. auto. }
    assert (ST : step w o = w') by (unfold step; rewrite H; reflexivity). rewrite ST in *.
    assert (D : (exists a, o = OSwap a) \/ forall a, o <> OSwap a)
      by (destruct o; eauto; right; intros; discriminate).
    destruct D as [(a & ->)|N].
    + destruct (swap_emits _ _ _ I H) as (r & x & -> & X1 & X2).
      destruct (swap_mono _ _ _ I H) as (_ & _ & _ & _ & C).
      destruct C as [(P1 & Q & _)|(Q & _ & P1)].
      * replace (_ <=? _) with false by lia. rewrite P1 in J1. cbn [app times].
        rewrite X1. cbn [is_completion Nat.add]. split; [exact J1|].
        intros h1 b q h2 X. destruct h1 as [|e1 [|e2 h1]].
        -- injection X as -> X. discriminate X1.
        -- discriminate X.
        -- injection X as _ _ X. eapply J2; eauto.
      * replace (_ <=? _) with true by lia.
        assert (PN : p_progress (w_pool w') <> 0) by (rewrite P1; destruct (has_vesting _); lia).
        pose proof (step_inv w (OSwap a) I) as I'. rewrite ST in I'.
        destruct (closed_history ops w' I' PN) as (C1 & C2 & C3). cbn [app times].
        rewrite X1, C2. cbn [is_completion Nat.add]. replace (_ =? 0) with false by lia. split; [reflexivity|].
        intros h1 b q h2 X. destruct h1 as [|e1 [|e2 [|e3 h1]]].
        -- injection X as -> X. discriminate X1.
        -- discriminate X.
        -- injection X as _ _ _ _ X. subst h2. exact C1.
        -- injection X as _ _ _ X. rewrite X, times_app in C1. simpl in C1. lia.
    + destruct (other_no_swap w o N) as (Z1 & _). pose proof (not_swap_progress _ _ _ I H N ltac:(lia)) as P1.
      rewrite P1 in J1. rewrite times_app, Z1. split; [exact J1|].
      intros h1 b q h2 X.
      assert (L : forall l h1, times is_completion l = O -> l ++ history w' ops = h1 ++ EvCurveComplete b q :: h2 ->
         exists h, history w' ops = h ++ EvCurveComplete b q :: h2).
      { clear. induction l as [|e l IHl]; intros h1 Z X; [eauto|].
        destruct h1 as [|e1 h1].
        - injection X as -> X. discriminate Z.
        - injection X as _ X. simpl in Z. eapply IHl; [|exact X]. lia. }
      destruct (L _ _ Z1 X) as (h & X'). eapply J2; eauto.
Qed.

(** ** What a swap event says *)

(** The reserve in the event is the old reserve plus what the event says went in, or minus what it says
    came out; the old event carries the same data; its "minimum" is met and its "amount in" is the
    amount paid, which is the traded amount plus the fees when these are in the input token. *)
Theorem C67_swap_event : forall w o, reachable w ->
  forall d hr a0 a1 mode r q th time,
  In (EvSwap2 d hr a0 a1 mode r q th time) (emits w o) ->
  q = match d with QuoteToBase => p_quote (w_pool w) + sr_excluded r
                 | BaseToQuote => p_quote (w_pool w) - left_curve (w_config w) d r end
  /\ q = p_quote (w_pool (step w o)) /\ sr_price r = p_price (w_pool (step w o))
  /\ th = c_threshold (w_config w)
  /\ sr_included r = sr_excluded r + (if same_token (charge_token (w_config w) d) (token_in d)
                                      then sr_trading r + sr_protocol r + sr_referral r else 0)
  /\ (hr = false -> sr_referral r = 0)
  /\ (mode = 0 -> sr_included r = a0 /\ a1 <= sr_output r)
  /\ (mode = 1 -> a1 <= sr_output r)
  /\ (mode = 2 -> sr_output r = a0 /\ sr_included r <= a1)
  /\ exists minimum,
       In (EvSwap d hr (sr_included r) minimum (sr_excluded r) (sr_output r) (sr_price r) (sr_trading r)
             (sr_protocol r) (sr_referral r) (sr_included r) time) (emits w o)
       /\ minimum <= sr_output r.
Proof.
  intros w o R d hr a0 a1 mode r q th time IN. pose proof (reachable_inv _ R) as I.
  assert (D : (exists a, o = OSwap a) \/ forall a, o <> OSwap a)
    by (destruct o; eauto; right; intros; discriminate).
  destruct D as [(a & ->)|N].
  2: { destruct (other_no_swap w o N) as (_ & Z1). exfalso. exact (times_in is_swap _ _ IN eq_refl Z1). }
  assert (HX : exists w', exec w (OSwap a) = Ok w').
  { unfold emits in IN. destruct (exec w (OSwap a)) as [w'|]; [eauto|destruct IN]. }
  destruct HX as (w' & H). unfold step. rewrite H.
  destruct (swap_told _ _ _ I H) as (r' & fm & num & fee & gross & pf & cf & cur & S & _ & E & _ & p1 & PRE & PS).
  pose proof (created_cfg_ok _ (iv_created _ I)) as K.
  pose proof (created_fees_ok _ (iv_created _ I)) as F.
  pose proof (exec_args _ _ _ H) as A. simpl in A. repeat rewrite andb_true_iff in A.
  destruct A as (((A0 & A1) & _) & _). apply u64b_ok in A0, A1. destruct A0 as (A0 & _), A1 as (A1 & _).
  assert (EC : w_config w' = w_config w) by (rewrite (se_same _ _ _ _ _ _ _ _ _ _ _ E); reflexivity).
  rewrite (emits_ok _ _ _ H) in *. unfold events_of in *. rewrite S in *. unfold swap_events in *.
  destruct (legacy_params _ _ _ _) as (pin & pmin) eqn:LP. rewrite EC in *.
  assert (EV : EvSwap2 d hr a0 a1 mode r q th time
     = EvSwap2 (sa_dir a) (is_some (sa_referral a)) (sa_amount0 a) (sa_amount1 a) (sa_mode a) r'
            (p_quote (w_pool w')) (c_threshold (w_config w)) (sa_now a)).
  { cbn [app In] in IN. destruct IN as [X|[X|X]]; [discriminate|congruence|].
    destruct (is_curve_complete _ _); [destruct X as [X|[]]; discriminate|destruct X]. }
  injection EV as -> -> -> -> -> -> -> -> ->. clear IN.
  pose proof (se_fm _ _ _ _ _ _ _ _ _ _ _ E) as FM. apply fee_token_of in FM. destruct FM as (FT & FI & FR).
  pose proof (se_facts _ _ _ _ _ _ _ _ _ _ _ E) as SF.
  pose proof (sf_parts _ _ _ _ _ _ _ _ SF) as (T1 & T2 & T3).
  pose proof (sf_out _ _ _ _ _ _ _ _ SF) as GO. pose proof (sf_in _ _ _ _ _ _ _ _ SF) as GI.
  destruct (se_pool _ _ _ _ _ _ _ _ _ _ _ E) as (p2 & AP & _ & _ & C).
  assert (LC : left_curve (w_config w) (sa_dir a) r' = gross).
  { unfold left_curve. rewrite GO, FI. destruct (same_token _ _); cbn [negb]; lia. }
  assert (Q2 : p_quote (w_pool w') = p_quote p2 /\ p_price (w_pool w') = p_price p2)
    by (destruct C as [(_ & ->)|(_ & _ & ->)]; auto).
  destruct Q2 as (Q2 & Q3). rewrite LC.
  assert (MD : (sa_mode a = 0 -> sr_included r' = sa_amount0 a /\ sa_amount1 a <= sr_output r')
     /\ (sa_mode a = 1 -> sa_amount1 a <= sr_output r')
     /\ (sa_mode a = 2 -> sr_output r' = sa_amount0 a /\ sr_included r' <= sa_amount1 a)).
  { destruct (pre_swap_ok _ _ _ _ PRE) as (vt & EP). unfold process_swap in PS.
    split; [|split]; intros M; rewrite M in PS; simpl in PS;
    apply bind_ok in PS; destruct PS as (rr & SS & PS);
    apply bind_ok in PS; destruct PS as (u & L & PS); apply Ok_inj in PS; subst rr; apply require_ok in L.
    - apply exact_in_facts in SS; auto; [|rewrite EP; apply (iv_price _ I)].
      destruct SS as (n & f & g & _ & _ & EI & _). split; [exact EI|lia].
    - lia.
    - apply exact_out_facts in SS; auto; [|rewrite EP; apply (iv_price _ I)].
      destruct SS as (n & f & g & _ & _ & EI & _). split; [exact EI|lia]. }
  destruct MD as (M0 & M1 & M2).
  split. { rewrite Q2, (ap_quote _ _ _ _ _ _ _ _ _ AP). unfold fi_dq. destruct (sa_dir a); lia. }
  split; [reflexivity|]. split. { rewrite Q3, (ap_price _ _ _ _ _ _ _ _ _ AP). reflexivity. }
  split; [reflexivity|]. split.
  { rewrite GI, FI. unfold charge_token. destruct (_ =? 1), (sa_dir a); cbn; lia. }
  split. { intros HR. rewrite T2, FR, HR. reflexivity. }
  split; [exact M0|]. split; [exact M1|]. split; [exact M2|].
  assert (MO : sa_mode a = 0 \/ sa_mode a = 1 \/ sa_mode a = 2).
  { unfold process_swap in PS. destruct (sa_mode a =? 0) eqn:X0; [lia|].
    destruct (sa_mode a =? 1) eqn:X1; [lia|]. destruct (sa_mode a =? 2) eqn:X2; [lia|discriminate]. }
  exists pmin. unfold legacy_params in LP.
  destruct MO as [M|[M|M]]; rewrite M in LP; simpl in LP; injection LP as <- <-.
  - destruct (M0 M) as (X & Y). rewrite <- X. split; [left; reflexivity|exact Y].
  - split; [left; reflexivity|lia].
  - destruct (M2 M) as (X & Y). rewrite X. split; [left; reflexivity|lia].
Qed.

(** ** From the very beginning *)

(** [w] is a new pool, under a config of its own, and [evs] are the events of the two instructions that
    created them. *)
Definition born (evs : list start_event) (w : world) : Prop :=
  exists q supported spl now quote_mint claimer leftover c key creator payer tt slot time admins operators,
    params_typed q /\ u64ok now /\ u64ok slot /\ u64ok time
    /\ create_config q supported spl now quote_mint claimer leftover = Ok c
    /\ initialize_pool c key creator payer tt slot time admins operators = Ok w
    /\ evs = config_events q supported spl now quote_mint claimer leftover
             ++ pool_events c key creator payer tt slot time admins operators.

Lemma born_initial evs w : born evs w -> initial w.
Proof.
  intros (q & s & spl & now & qm & fc & lr & c & key & cr & py & t & sl & ti & ad & ops & T & N & S & TI & C & P & _).
  exists c, key, cr, py, t, sl, ti, ad, ops. split; [|auto]. exists q, s, spl, now, qm, fc, lr. auto.
Qed.

(** The config depends on the parameters and the three addresses of the event, not on the time of its
    creation. *)
Lemma config_determined q s s' spl spl' now now' qm fc lr c c' :
  create_config q s spl now qm fc lr = Ok c -> create_config q s' spl' now' qm fc lr = Ok c' -> c = c'.
Proof.
  unfold create_config. intros H H'.
  apply bind_ok in H. destruct H as (u & _ & H). apply bind_ok in H'. destruct H' as (u' & _ & H'). congruence.
Qed.

Lemma birth_told evs w : born evs w -> exists c q qm fc lr creator tt act old,
  w_config w = c
  /\ evs = [old; EvCreateConfig2 qm fc lr q; EvInitializePool creator tt act]
  /\ (exists s spl now, create_config q s spl now qm fc lr = Ok c)
  /\ exists supply, get_initial_base_supply c = Ok supply
  /\ w_pool w = pool_init creator (c_start c) act supply PROTOCOL_LIQUIDITY_MIGRATION_FEE_BPS.
Proof.
  intros (q & s & spl & now & qm & fc & lr & c & key & cr & py & t & sl & ti & ad & ops & _ & _ & _ & _ & C & P & E).
  unfold config_events, pool_events in E. rewrite C, P in E.
  unfold initialize_pool in P.
  apply bind_ok in P. destruct P as (x1 & _ & P). apply bind_ok in P. destruct P as (x2 & _ & P).
  apply bind_ok in P. destruct P as (x3 & _ & P). apply bind_ok in P. destruct P as (sup & SU & P).
  apply bind_ok in P. destruct P as (x4 & _ & P). apply bind_ok in P. destruct P as (x5 & _ & P).
  apply bind_ok in P. destruct P as (x6 & _ & P). apply bind_ok in P. destruct P as (act & AC & P).
  apply Ok_inj in P. rewrite AC in E. subst w. cbn [app] in E.
  do 9 eexists. split; [reflexivity|]. split; [exact E|]. split; [eauto|]. eauto.
Qed.

(** Two pools whose events agree from the creation of their configs on have the same config, the same
    activation point and the same book: the whole story is in the events. *)
Theorem C67_whole_story : forall evs w1 w2 ops1 ops2, born evs w1 -> born evs w2 ->
  history w1 ops1 = history w2 ops2 ->
  w_config w1 = w_config w2
  /\ p_activation (w_pool w1) = p_activation (w_pool w2)
  /\ book_of (w_pool (run w1 ops1)) = book_of (w_pool (run w2 ops2)).
Proof.
  intros evs w1 w2 ops1 ops2 B1 B2 H.
  assert (R1 : reachable w1) by (exists w1, []; split; [eapply born_initial; eauto|reflexivity]).
  assert (R2 : reachable w2) by (exists w2, []; split; [eapply born_initial; eauto|reflexivity]).
  apply birth_told in B1, B2.
  destruct B1 as (c1 & q1 & qm1 & fc1 & lr1 & cr1 & t1 & a1 & old1 & C1 & E1 & (s1 & l1 & n1 & K1) & su1 & S1 & P1).
  destruct B2 as (c2 & q2 & qm2 & fc2 & lr2 & cr2 & t2 & a2 & old2 & C2 & E2 & (s2 & l2 & n2 & K2) & su2 & S2 & P2).
  rewrite E1 in E2. injection E2 as _ <- <- <- <- <- <- <-.
  pose proof (config_determined _ _ _ _ _ _ _ _ _ _ _ _ K1 K2) as EC.
  rewrite <- EC in S2, P2. rewrite S1 in S2. apply Ok_inj in S2. subst su2.
  split; [congruence|]. split; [rewrite P1, P2; reflexivity|].
  rewrite (C67_replay _ _ R1), (C67_replay _ _ R2), H, P1, P2, C1, C2, EC. reflexivity.
Qed.

(** What the events of creation say is what is stored: the old event of config creation repeats the
    config, and the pool opens at the announced point for the announced creator. *)
Theorem C67_creation_events : forall evs w, born evs w ->
  exists q, evs =
    [ let c := w_config w in
      EvCreateConfig (c_quote_mint c) (c_fee_claimer c) (c_leftover_receiver c) (pf_base (c_fees c))
        (q_dynamic_fee q) (c_collect_fee_mode c) (c_migration_option c) (c_activation_type c)
        (c_token_decimal c) (c_token_type c) (c_partner_perm_pct c) (c_partner_liq_pct c)
        (c_creator_perm_pct c) (c_creator_liq_pct c) (c_swap_base_amount c) (c_threshold c)
        (c_base_threshold c) (c_start c) (c_vesting c) (c_migration_fee_option c)
        (c_fixed_supply_flag c) (c_pre_supply c) (c_post_supply c) (curve_points c);
      EvCreateConfig2 (c_quote_mint (w_config w)) (c_fee_claimer (w_config w)) (c_leftover_receiver (w_config w)) q;
      EvInitializePool (p_creator (w_pool w)) (c_token_type (w_config w)) (p_activation (w_pool w)) ]
    /\ (q_dynamic_fee q = None -> dyn_enabled (pf_dyn (c_fees (w_config w))) = false)
    /\ (forall d, q_dynamic_fee q = Some d -> dyn_enabled (pf_dyn (c_fees (w_config w))) = true).
Proof.
  intros evs w (q & s & spl & now & qm & fc & lr & c & key & cr & py & t & sl & ti & ad & ops & T & _ & _ & _ & C & P & E).
  unfold config_events, pool_events in E. rewrite C, P in E.
  unfold initialize_pool in P.
  apply bind_ok in P. destruct P as (x1 & _ & P). apply bind_ok in P. destruct P as (x2 & _ & P).
  apply bind_ok in P. destruct P as (x3 & _ & P). apply bind_ok in P. destruct P as (sup & _ & P).
  apply bind_ok in P. destruct P as (x4 & TT & P). apply bind_ok in P. destruct P as (x5 & _ & P).
  apply bind_ok in P. destruct P as (x6 & _ & P). apply bind_ok in P. destruct P as (act & AC & P).
  apply Ok_inj in P. rewrite AC in E. apply require_ok in TT.
  apply create_inv in C. destruct C as (mig & sb & ba & fl & pre & post & qa & bps & B).
  pose proof (cb_eq _ _ _ _ _ _ _ _ _ _ _ _ _ _ _ _ B) as EQ.
  pose proof (cb_valid _ _ _ _ _ _ _ _ _ _ _ _ _ _ _ _ B) as V. apply validate_inv in V. destruct V as (_ & V).
  pose proof (curve_validate_ok _ _ (va_curve _ _ _ V)) as (_ & _ & _ & W & _).
  assert (CP : curve_points c = q_curve q) by (rewrite EQ; apply curve_points_build; auto).
  exists q. rewrite <- P. cbn [w_config w_pool pool_init p_creator p_activation]. cbv zeta. rewrite CP.
  assert (TQ : t = c_token_type c) by lia. rewrite E, TQ.
  split; [rewrite EQ; reflexivity|].
  rewrite EQ. cbn [build c_fees to_pool_fees_config pf_dyn]. split; [intros ->; reflexivity|intros d ->; reflexivity].
Qed.


(** ** Examples: a full life of a pool *)
Example C67_case_history :
  let ops := histA1 ++ histA2 ++ histA3 in
  all_ok wA ops = true
  /\ times is_swap (history wA ops) = 6%nat /\ times is_completion (history wA ops) = 1%nat
  /\ length (history wA ops) = 24%nat
  /\ p_progress (w_pool wA) = 0 /\ p_progress (w_pool (run wA ops)) = 3
  /\ b_quote (fold_left (note (w_config wA)) (history wA ops) (book_of (w_pool wA)))
     = p_quote (w_pool (run wA ops))
  /\ 0 < b_partner_quote (book_of (w_pool (run wA ops))) /\ 0 < b_trading_quote (book_of (w_pool (run wA ops))).
Proof. vm_compute. repeat split; reflexivity. Qed.
Example C67_case_payments :
  let w := run wA (histA1 ++ histA2 ++ [OCreateOperator 99 88 3]) in
  silent (OClaimProtocol 88 1000 1000) = false /\ is_ok (exec w (OClaimProtocol 88 1000 1000)) = true
  /\ sum (told (w_config w) TQuote) (emits w (OClaimProtocol 88 1000 1000)) < -1000.
Proof. vm_compute. repeat split; reflexivity. Qed.
(** A sale in a pool that charges its fees in the quote token: the event tells the gross output. *)
Example C67_case_sale :
  let w := run wA (firstn 2 histA1) in
  exists d hr a0 a1 mode r q th time,
    In (EvSwap2 d hr a0 a1 mode r q th time) (emits w (nth 2 histA1 OLeftover))
    /\ d = BaseToQuote /\ hr = true /\ 0 < sr_referral r /\ sr_output r < left_curve (w_config w) d r.
Proof. vm_compute. do 9 eexists. split; [right; left; reflexivity|]. repeat split; reflexivity. Qed.

(** Pool A with its config, created with three events. *)
Definition birthA : list start_event :=
  config_events fx_paramsA true true 1700000000 11 22 33 ++ pool_events cfgA 77 44 55 0 1000 1700000000 [99] [].
Example C67_case_born : born birthA wA /\ length birthA = 3%nat.
Proof.
  split; [|vm_compute; reflexivity].
  exists fx_paramsA, true, true, 1700000000, 11, 22, 33, cfgA, 77, 44, 55, 0, 1000, 1700000000, [99], [].
  split; [apply typedA|]. do 3 (split; [unfold u64ok; vm_compute; split; congruence|]).
  split; [apply cfgA_created|]. split; [apply wA_created|reflexivity].
Qed.

Print Assumptions C67_events_tell_payments.
Print Assumptions C67_replay.
Print Assumptions C67_completion_event.
Print Assumptions C67_completion_once.
Print Assumptions C67_swap_event.
Print Assumptions C67_whole_story.
Print Assumptions C67_creation_events.
