(** * C80: wrong accounts are never accepted

    An instruction names the accounts it works on: the config, the vaults, the mints, the metadata, the
    operator account, the creator, the receiver of the leftover. Here: if it succeeds, every account so
    named is the pool's own (or the signer's own, or the config's choice), whatever else exists. *)
From Coq Require Import ZArith List Bool Lia ZifyBool.
From Verif Require Import Base MathModel CurveModel FeeModel ConfigModel PoolModel TxModel SystemModel
  Lib Spec InvProofs InvReach Effects Frame AcctModel AcctSim AcctInv AcctSpec AcctStep PropAcct PropConfig Fixtures FixturesReach.
Import ListNotations.
Open Scope Z_scope.
#[local] Arguments Z.pow : simpl never.

(** ** Specification *)

(** The pool an instruction names. *)
Definition on_pool (i : instr) : option addr :=
  match i with
  | ISwap a _ _ _ _ _ _ _ _ _ _ _ _ _ _ _ | IClaimPartner a _ _ _ _ _ _ _ _ _ _
  | IClaimCreator a _ _ _ _ _ _ _ _ _ | IClaimProtocol a _ _ _ _ _ _ _ _ _ _ _
  | IZap a _ _ _ _ _ _ _ _ _ | IPartnerSurplus a _ _ _ _ _ | ICreatorSurplus a _ _ _ _ _
  | IMigrationFee a _ _ _ _ _ _ | ILeftover a _ _ _ _ _ | IPartnerCreationFee a _ _ _
  | IProtocolCreationFee a _ _ _ | ITransferCreator a _ _ _ _ | ICreateLocker a _ _ _ _
  | ICreateMetadata a _ _ | IMigrateV1 a _ _ _ _ _ _ _ | IMigrateV2 a _ _ _ _ _ _ _
  | ILockLp a _ _ _ _ | IClaimLp a _ _ _ _ _ => Some a
  | _ => None
  end.

(** [s] is an operator with permission [bit] (0: claim, 1: zap). *)
Definition may (b : bank) (s bit : Z) : Prop :=
  exists perm, find_operator (b_ops b) s = Some perm /\ Z.testbit perm bit = true.

(** The accounts named are those of pool [a] (whose account is [p]) and of its config [c]. *)
Inductive right (b : bank) (a : addr) (p : poolacct) (c : config) : instr -> Prop :=
  | r_swap inp out r s mode a0 a1 slot now v m n :
      b_acc b inp = Some (ATok m (Ext s) n) -> m = pa_bmint p \/ m = c_quote_mint c ->
      right b a p c (ISwap a (pa_config p) (pa_bvault p) (pa_qvault p) (pa_bmint p) (c_quote_mint c) inp out r s
                       mode a0 a1 slot now v)
  | r_claim_partner ta tb mb mq :
      right b a p c (IClaimPartner a (pa_config p) (pa_bvault p) (pa_qvault p) (pa_bmint p) (c_quote_mint c) ta tb
                       (c_fee_claimer c) mb mq)
  | r_claim_creator ta tb mb mq :
      right b a p c (IClaimCreator a (pa_bvault p) (pa_qvault p) (pa_bmint p) (c_quote_mint c) ta tb
                       (p_creator (pa_pool p)) mb mq)
  | r_claim_protocol ta tb s mb mq :
      may b s 0 ->
      right b a p c (IClaimProtocol a (pa_config p) (pa_bvault p) (pa_qvault p) (pa_bmint p) (c_quote_mint c) ta tb
                       s s mb mq)
  | r_zap_base s m al ok :
      may b s 1 ->
      right b a p c (IZap a (pa_config p) (pa_bvault p) (pa_bmint p) (AtaA (Ext s) (pa_bmint p)) s s m al ok)
  | r_zap_quote s m al ok :
      may b s 1 ->
      right b a p c (IZap a (pa_config p) (pa_qvault p) (c_quote_mint c) (AtaA (Ext s) (c_quote_mint c)) s s m al ok)
  | r_partner_surplus y :
      right b a p c (IPartnerSurplus a (pa_config p) (pa_qvault p) (c_quote_mint c) y (c_fee_claimer c))
  | r_creator_surplus y :
      right b a p c (ICreatorSurplus a (pa_config p) (pa_qvault p) (c_quote_mint c) y (p_creator (pa_pool p)))
  | r_migration_fee y s f :
      f = 0 /\ s = c_fee_claimer c \/ f = 1 /\ s = p_creator (pa_pool p) ->
      right b a p c (IMigrationFee a (pa_config p) (pa_qvault p) (c_quote_mint c) y s f)
  | r_leftover :
      right b a p c (ILeftover a (pa_config p) (pa_bvault p) (pa_bmint p)
                       (AtaA (Ext (c_leftover_receiver c)) (pa_bmint p)) (c_leftover_receiver c))
  | r_partner_creation_fee y :
      right b a p c (IPartnerCreationFee a (pa_config p) y (c_fee_claimer c))
  | r_protocol_creation_fee s :
      may b s 0 ->
      right b a p c (IProtocolCreationFee a (pa_config p) s s)
  | r_transfer_creator n meta :
      (p_progress (pa_pool p) = CreatedPool -> c_migration_option c = 0 -> meta = Some (MetaA a)) ->
      right b a p c (ITransferCreator a (pa_config p) (p_creator (pa_pool p)) n meta)
  | r_locker :
      right b a p c (ICreateLocker a (pa_config p) (pa_bvault p) (pa_bmint p) (p_creator (pa_pool p)))
  | r_metadata :
      right b a p c (ICreateMetadata a (pa_config p) (MetaA a))
  | r_migrate_v1 lm ok lp :
      right b a p c (IMigrateV1 a (pa_config p) (pa_bvault p) (pa_qvault p) (MetaA a) lm ok lp)
  | r_migrate_v2 x now :
      right b a p c (IMigrateV2 a (pa_config p) (pa_bvault p) (pa_qvault p) (pa_bmint p) (c_quote_mint c) x now)
  | r_lock_lp m lm k :
      b_acc b (MetaA a) = Some (AMeta m a (Some lm)) ->
      right b a p c (ILockLp a (MetaA a) lm (AtaA Auth lm) k)
  | r_claim_lp m lm k :
      b_acc b (MetaA a) = Some (AMeta m a (Some lm)) ->
      right b a p c (IClaimLp a (MetaA a) lm (AtaA Auth lm) (AtaA (Ext k) lm) k).

(** ** Proof *)

Ltac bn H x E := apply bind_ok in H; destruct H as (x & E & H).
Ltac bs H := let x := fresh "u" in let E := fresh "Q" in bn H x E.

(** The model's own checks of who calls. *)
Lemma exec_signer w o w' : exec w o = Ok w' ->
  match o with
  | OClaimPartner s _ _ _ | OPartnerSurplus s _ | OPartnerCreationFee s _ => s = c_fee_claimer (w_config w)
  | OClaimCreator s _ _ _ | OCreatorSurplus s _ | OTransferCreator s _ => s = p_creator (w_pool w)
  | OMigrationFee s _ f => f = 0 /\ s = c_fee_claimer (w_config w) \/ f = 1 /\ s = p_creator (w_pool w)
  | OClaimProtocol s _ _ | OProtocolCreationFee s => permitted w s 0
  | OZap s _ _ _ _ => permitted w s 1
  | _ => True
  end.
Proof.
  intros H. pose proof (exec_args _ _ _ H) as A. unfold exec in H. rewrite A in H. cbn [require bind] in H.
  destruct o; try exact Logic.I.
  - unfold claim_partner_fee in H. bo H. apply require_ok in E. lia.
  - unfold claim_creator_fee in H. bo H. apply require_ok in E. lia.
  - unfold claim_protocol_fee in H. bo H. destruct v. apply check_operator_ok in E; [exact E|unfold CLAIM_PROTOCOL_FEE; lia].
  - unfold zap_protocol_fee in H. bo H. destruct v. apply check_operator_ok in E; [exact E|unfold ZAP_PROTOCOL_FEE; lia].
  - unfold withdraw_partner_surplus in H. bo H. apply require_ok in E. lia.
  - unfold withdraw_creator_surplus in H. bo H. apply require_ok in E. lia.
  - unfold withdraw_migration_fee in H. cbv zeta in H. do 2 bo H. destruct v0 as [x y].
    destruct (flag =? 0) eqn:F0; [left|]; [|destruct (flag =? 1) eqn:F1; [right|discriminate H]];
      bo H; apply require_ok in E1; lia.
  - unfold claim_partner_creation_fee in H. bo H. apply require_ok in E. lia.
  - unfold claim_protocol_creation_fee in H. bo H. destruct v. apply check_operator_ok in E; [exact E|unfold CLAIM_PROTOCOL_FEE; lia].
  - unfold transfer_creator in H. bo H. apply require_ok in E. lia.
Qed.

(** The world a handler runs on: who may call, in terms of the accounts. *)
Lemma run_signer b a p o cfg bv qv m lp w b1 c : b_acc b a = Some (APool p) -> b_acc b (Ext cfg) = Some (AConfig c) ->
  run_on b a cfg bv qv m lp o = Ok (w, b1) ->
  match o with
  | OClaimPartner s _ _ _ | OPartnerSurplus s _ | OPartnerCreationFee s _ => s = c_fee_claimer c
  | OClaimCreator s _ _ _ | OCreatorSurplus s _ | OTransferCreator s _ => s = p_creator (pa_pool p)
  | OMigrationFee s _ f => f = 0 /\ s = c_fee_claimer c \/ f = 1 /\ s = p_creator (pa_pool p)
  | OClaimProtocol s _ _ | OProtocolCreationFee s => may b s 0
  | OZap s _ _ _ _ => may b s 1
  | _ => True
  end.
Proof.
  intros LP LC H. unfold run_on, load_pool, load_config in H. rewrite LP, LC in H. cbn [bind] in H. do 3 bo H. apply exec_signer in E1. exact E1.
Qed.

Lemma own_mints b a p c : binv b -> b_acc b a = Some (APool p) -> b_acc b (Ext (pa_config p)) = Some (AConfig c) ->
  (forall m u, has_mint b (pa_bvault p) m = Ok u -> m = pa_bmint p)
  /\ (forall m u, has_mint b (pa_qvault p) m = Ok u -> m = c_quote_mint c).
Proof.
  intros I P C. destruct (bi_pool _ I _ _ P) as (c0 & nb & nq & w & C0 & _ & _ & _ & _ & TB & TQ & _).
  split; intros m u H; apply has_mint_ok in H; destruct H as (o & n & H); congruence.
Qed.

Theorem C80_only_the_right_accounts : forall b i b' a p c, history b -> ix b i = Ok b' -> on_pool i = Some a ->
  b_acc b a = Some (APool p) -> b_acc b (Ext (pa_config p)) = Some (AConfig c) -> right b a p c i.
Proof.
  intros b i b' a p c Hh H ON P C. apply history_binv in Hh. rename Hh into I.
  destruct (own_mints _ _ _ _ I P C) as (MB & MQ).
  assert (LP : forall q, load_pool b a = Ok q -> q = p) by (intros q L; apply load_pool_ok in L; congruence).
  destruct i; simpl in ON; try discriminate ON; injection ON as ->; simpl in H.
  - unfold exec_swap in H. bn H q EQ. apply LP in EQ. subst q. do 3 bs H. chk. subst bvault qvault config.
    bn H u5 E5. bn H u6 E6. apply MB in E5. apply MQ in E6. subst bmint qmint.
    bn H t E. destruct t as [[mi oi] ni]. apply load_tok_ok in E. do 2 bs H. cbv zeta in H.
    bn H r ER. destruct r as [w b1]. bn H b2 ED.
    destruct (run_on_ran _ _ _ (OSwap _) _ _ _ _ _ _ _ I P eq_refl eq_refl eq_refl eq_refl eq_refl eq_refl ER) as (c1 & v7 & wa & wa' & RN).
    destruct (ran_stored _ _ _ _ _ _ _ _ _ _ RN) as (S1 & S2 & S3 & S4 & S5 & S6 & S7).
    apply debit_ok in ED. destruct ED as (x & D1 & _).
    assert (X : b_acc b inp = b_acc b1 inp).
    { symmetry. apply S7; intros ->; congruence. }
    rewrite <- X in D1. eapply r_swap; [exact D1|]. destruct (mi =? pa_bmint p); auto.
  - unfold exec_claim_partner in H. bn H c0 EC. bs H. bn H q EQ. apply LP in EQ. subst q. do 4 bs H. chk. subst.
    assert (c0 = c) by congruence. subst c0. do 4 bs H. bn H r ER. destruct r as [w b1].
    apply (run_signer _ _ _ _ _ _ _ _ _ _ _ _ P C) in ER. cbv beta iota in ER. subst signer. constructor.
  - unfold exec_claim_creator in H. bn H q EQ. apply LP in EQ. subst q. do 3 bs H. chk. subst.
    do 2 bs H. bs H. bn H u9 E9. apply MQ in E9. subst qmint. bn H r ER. destruct r as [w b1].
    apply (run_signer _ _ _ _ _ _ _ _ _ _ _ _ P C) in ER. cbv beta iota in ER. subst signer. constructor.
  - unfold exec_claim_protocol in H. bn H c0 EC. bs H. bn H q EQ. apply LP in EQ. subst q. do 4 bs H. chk. subst.
    assert (c0 = c) by congruence. subst c0. do 2 bs H. bn H u9 E9. apply require_ok in E9. bn H r ER. destruct r as [w b1].
    apply (run_signer _ _ _ _ _ _ _ _ _ _ _ _ P C) in ER. cbv beta iota in ER. assert (operator = signer) by lia. subst operator.
    constructor. exact ER.
  - unfold exec_zap in H. bn H c0 EC. bn H q EQ. apply LP in EQ. subst q. bs H. chk. subst.
    assert (c0 = c) by congruence. subst c0. bs H. bn H u9 E9. apply require_ok in E9. bn H u10 E10. apply require_ok in E10.
    cbv zeta in H. bn H u11 E11. apply same_ok in E11. subst vault. bn H r ER. destruct r as [w b1].
    apply (run_signer _ _ _ _ _ _ _ _ _ _ _ _ P C) in ER. cbv beta iota in ER. assert (operator = signer) by lia. subst operator.
    bn H u12 E12. destruct (is_ata_ok _ _ _ _ _ E12) as (-> & _).
    destruct (mint =? pa_bmint p) eqn:EM.
    + assert (mint = pa_bmint p) by lia. subst mint. apply r_zap_base. exact ER.
    + assert (mint = c_quote_mint c) by lia. subst mint. apply r_zap_quote. exact ER.
  - unfold exec_quote_payout in H. bn H c0 EC. bs H. bn H q EQ. apply LP in EQ. subst q. do 2 bs H. chk. subst.
    assert (c0 = c) by congruence. subst c0. do 2 bs H. bn H r ER. destruct r as [w b1].
    apply (run_signer _ _ _ _ _ _ _ _ _ _ _ _ P C) in ER. cbv beta iota in ER. subst signer. constructor.
  - unfold exec_quote_payout in H. bn H c0 EC. bs H. bn H q EQ. apply LP in EQ. subst q. do 2 bs H. chk. subst.
    assert (c0 = c) by congruence. subst c0. do 2 bs H. bn H r ER. destruct r as [w b1].
    apply (run_signer _ _ _ _ _ _ _ _ _ _ _ _ P C) in ER. cbv beta iota in ER. subst signer. constructor.
  - unfold exec_quote_payout in H. bn H c0 EC. bs H. bn H q EQ. apply LP in EQ. subst q. do 2 bs H. chk. subst.
    assert (c0 = c) by congruence. subst c0. do 2 bs H. bn H r ER. destruct r as [w b1].
    apply (run_signer _ _ _ _ _ _ _ _ _ _ _ _ P C) in ER. cbv beta iota in ER. constructor. exact ER.
  - unfold exec_leftover in H. bn H c0 EC. bs H. bn H q EQ. apply LP in EQ. subst q. do 3 bs H. chk. subst.
    assert (c0 = c) by congruence. subst c0. bn H u9 E9. destruct (is_ata_ok _ _ _ _ _ E9) as (-> & _). constructor.
  - unfold exec_partner_creation in H. bs H. bn H q EQ. apply LP in EQ. subst q. bs H. chk. subst.
    bn H r ER. destruct r as [w b1].
    apply (run_signer _ _ _ _ _ _ _ _ _ _ _ _ P C) in ER. cbv beta iota in ER. subst signer. constructor.
  - unfold exec_protocol_creation in H. bs H. bn H q EQ. apply LP in EQ. subst q. bs H. chk. subst.
    bn H u9 E9. apply require_ok in E9. bn H r ER. destruct r as [w b1].
    apply (run_signer _ _ _ _ _ _ _ _ _ _ _ _ P C) in ER. cbv beta iota in ER. assert (operator = signer) by lia. subst operator.
    constructor. exact ER.
  - unfold exec_transfer_creator in H. bn H q EQ. apply LP in EQ. subst q. bs H. bn H c0 EC. chk. subst.
    assert (c0 = c) by congruence. subst c0. bn H m EM. bn H r ER. destruct r as [w b1].
    apply (run_signer _ _ _ _ _ _ _ _ _ _ _ _ P C) in ER. cbv beta iota in ER. subst signer. constructor.
    intros PG MO. rewrite PG, MO in EM. cbn [andb Z.eqb Pos.eqb] in EM. change (CreatedPool =? CreatedPool) with true in EM.
    cbn [andb] in EM. bn EM y EY. bn EM t ET. destruct t as [[m0 vp] l]. apply load_meta_ok in ET. bs EM. chk. subst vp.
    apply ok_or_ok in EY. destruct (meta_unique _ _ _ _ _ I ET) as (-> & _). exact EY.
  - unfold exec_locker in H. bn H q EQ. apply LP in EQ. subst q. do 4 bs H. chk. subst. constructor.
  - unfold exec_metadata in H. bn H q EQ. apply LP in EQ. subst q. do 2 bs H. chk. subst. constructor.
  - unfold exec_migrate_v1 in H. bn H q EQ. apply LP in EQ. subst q. do 3 bs H. chk. subst.
    bn H t ET. destruct t as [[m0 vp] l]. apply load_meta_ok in ET. bs H. chk. subst vp.
    destruct (meta_unique _ _ _ _ _ I ET) as (-> & _). constructor.
  - unfold exec_migrate_v2 in H. bn H q EQ. apply LP in EQ. subst q. do 3 bs H. chk. subst.
    bn H u5 E5. bn H u6 E6. apply MB in E5. apply MQ in E6. subst bmint qmint. constructor.
  - unfold exec_lock_lp in H. bn H m E. unfold lp_accounts in E. bs E. bn E t ET. destruct t as [[m0 vp] l]. bn E l0 EL.
    do 2 bs E. bn E u5 E5. chk. apply load_meta_ok in ET. apply ok_or_ok in EL. subst l l0 vp.
    destruct (meta_unique _ _ _ _ _ I ET) as (-> & _). destruct (is_ata_ok _ _ _ _ _ E5) as (-> & _).
    econstructor. exact ET.
  - unfold exec_claim_lp in H. bn H m E. bn H u7 E7. unfold lp_accounts in E. bs E. bn E t ET. destruct t as [[m0 vp] l]. bn E l0 EL.
    do 2 bs E. bn E u5 E5. chk. apply load_meta_ok in ET. apply ok_or_ok in EL. subst l l0 vp.
    destruct (meta_unique _ _ _ _ _ I ET) as (-> & _). destruct (is_ata_ok _ _ _ _ _ E5) as (-> & _).
    destruct (is_ata_ok _ _ _ _ _ E7) as (-> & _). econstructor. exact ET.
Qed.

(** A pool instruction on something that is not a pool fails. *)
Theorem C80_only_pools : forall b i b' a, ix b i = Ok b' -> on_pool i = Some a ->
  exists p, b_acc b a = Some (APool p).
Proof.
  intros b i b' a H ON.
  assert (K : forall p, load_pool b a = Ok p -> exists p, b_acc b a = Some (APool p)).
  { intros p L. apply load_pool_ok in L. eauto. }
  destruct i; simpl in ON; try discriminate ON; injection ON as ->; simpl in H.
  - unfold exec_swap in H. bn H q EQ. eauto.
  - unfold exec_claim_partner in H. do 2 bs H. bn H q EQ. eauto.
  - unfold exec_claim_creator in H. bn H q EQ. eauto.
  - unfold exec_claim_protocol in H. do 2 bs H. bn H q EQ. eauto.
  - unfold exec_zap in H. bs H. bn H q EQ. eauto.
  - unfold exec_quote_payout in H. do 2 bs H. bn H q EQ. eauto.
  - unfold exec_quote_payout in H. do 2 bs H. bn H q EQ. eauto.
  - unfold exec_quote_payout in H. do 2 bs H. bn H q EQ. eauto.
  - unfold exec_leftover in H. do 2 bs H. bn H q EQ. eauto.
  - unfold exec_partner_creation in H. bs H. bn H q EQ. eauto.
  - unfold exec_protocol_creation in H. bs H. bn H q EQ. eauto.
  - unfold exec_transfer_creator in H. bn H q EQ. eauto.
  - unfold exec_locker in H. bn H q EQ. eauto.
  - unfold exec_metadata in H. bn H q EQ. eauto.
  - unfold exec_migrate_v1 in H. bn H q EQ. eauto.
  - unfold exec_migrate_v2 in H. bn H q EQ. eauto.
  - unfold exec_lock_lp, lp_accounts in H. bn H m E. bn E q EQ. eauto.
  - unfold exec_claim_lp, lp_accounts in H. bn H m E. bn E q EQ. eauto.
Qed.

(** What is created is created at a fresh address from a real quote mint: the new config's and the new
    pool's quote mint exists, and it is the one the config records. *)
Theorem C80_only_fresh_accounts : forall b i b', ix b i = Ok b' ->
  (forall key q su spl now qm cl lr, i = ICreateConfig key q su spl now qm cl lr ->
     b_acc b (Ext key) = None /\ b_acc b (Ext qm) = Some AMint
     /\ exists c, b_acc b' (Ext key) = Some (AConfig c) /\ c_quote_mint c = qm)
  /\ (forall k bm qm cr pa ty slot now, i = IInitPool k bm qm cr pa ty slot now ->
     b_acc b (Ext bm) = None /\ b_acc b (Ext qm) = Some AMint
     /\ (exists c, b_acc b (Ext k) = Some (AConfig c) /\ c_quote_mint c = qm)
     /\ let a := PoolA k (Z.max bm qm) (Z.min bm qm) in
        b_acc b a = None /\ b_acc b (VaultA bm a) = None /\ b_acc b (VaultA qm a) = None).
Proof.
  intros b i b' H. split.
  - intros key q su spl now qm cl lr ->. simpl in H. unfold exec_config in H.
    bn H u1 E1. apply require_ok in E1. apply unused_ok in E1. bn H u2 E2. apply load_mint_ok in E2. bn H c E3.
    apply Ok_inj in H. subst b'. rewrite put_same. repeat (split; [assumption|]). exists c. split; [reflexivity|].
    apply C37_terms_as_given in E3. apply E3.
  - intros k bm qm cr pa ty slot now ->. simpl in H. unfold exec_init in H.
    bn H c EC. bn H u1 E1. bn H u2 E2. apply load_mint_ok in E2. chk. subst qm. cbv zeta in H |- *.
    bn H u3 E3. apply require_ok in E3. apply unused_ok in E3. bn H w EW.
    bn H u4 E4. apply require_ok in E4. apply unused_ok in E4. rewrite put_other in E4 by congruence.
    bn H u5 E5. apply require_ok in E5. apply unused_ok in E5. rewrite !put_other in E5 by congruence.
    bn H u6 E6. apply require_ok in E6. apply unused_ok in E6.
    rewrite !put_other in E6 by congruence.
    repeat (split; [assumption|]). split; [eauto|]. repeat (split; [assumption|]). assumption.
Qed.

(** In the market of PropAcct: the right accounts are accepted; the same instruction with the operator
    account of somebody else, or with the mint of the other pool, is not. *)
Example C80_case :
  let claim op := IClaimProtocol pool12 7 (VaultA 12 pool12) (VaultA 11 pool12) 12 11 (Ext 502) (AtaA (Ext 66) 11) op 88
                    U64_MAX U64_MAX in
  let good := buy pool13 7 (VaultA 13 pool13) (VaultA 11 pool13) 13 (Ext 501) (Ext 503) 2000000000 1700000040 in
  history market /\ on_pool (claim 88) = Some pool12 /\ ok (ix market (claim 88)) = true
  /\ ok (ix market (claim 87)) = false /\ ok (ix market good) = true /\ on_pool good = Some pool13
  /\ pool_at market pool12 = true
  /\ ok (ix market (IInitPool 7 14 11 44 55 0 1000 1700000000)) = true
  /\ ok (ix market (IInitPool 7 12 11 44 55 0 1000 1700000000)) = false
  /\ ok (ix market (ICreateConfig 8 fx_paramsA true true 1700000000 11 22 33)) = true
  /\ ok (ix market (ICreateConfig 8 fx_paramsA true true 1700000000 15 22 33)) = false.
Proof. split; [exact market_history|]. vm_compute. repeat split; reflexivity. Qed.

Print Assumptions C80_only_the_right_accounts.
Print Assumptions C80_only_pools.
Print Assumptions C80_only_fresh_accounts.
