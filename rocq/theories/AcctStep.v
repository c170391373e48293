(** * Every instruction, on the accounts the caller chose *)
From Coq Require Import ZArith List Bool Lia ZifyBool.
From Verif Require Import Base MathModel CurveModel FeeModel ConfigModel PoolModel TxModel SystemModel
  Lib Spec InvProofs InvReach Frame AcctModel AcctSim AcctInv.
Import ListNotations.
Open Scope Z_scope.

(** The pool an instruction works on and the single-pool instruction it runs. The direction of a swap
    follows from the mint of the account the tokens come from. *)
Definition runs (b : bank) (i : instr) : option (addr * op) :=
  match i with
  | ISwap pool _ _ _ bmint _ inp _ referral signer mode a0 a1 slot now v =>
    let d := match b_acc b inp with
             | Some (ATok m _ _) => if m =? bmint then BaseToQuote else QuoteToBase
             | _ => QuoteToBase
             end in
    Some (pool, OSwap (mkSwapArgs signer (match referral with Some _ => Some 0 | None => None end) d mode a0 a1
                         slot now v))
  | IClaimPartner pool _ _ _ _ _ _ _ s mb mq => Some (pool, OClaimPartner s s mb mq)
  | IClaimCreator pool _ _ _ _ _ _ s mb mq => Some (pool, OClaimCreator s s mb mq)
  | IClaimProtocol pool _ _ _ _ _ _ _ _ s mb mq => Some (pool, OClaimProtocol s mb mq)
  | IZap pool _ _ mint _ _ s ma al ok =>
    match b_acc b pool with
    | Some (APool p) => Some (pool, OZap s ma (mint =? pa_bmint p) al ok)
    | _ => None
    end
  | IPartnerSurplus pool _ _ _ _ s => Some (pool, OPartnerSurplus s s)
  | ICreatorSurplus pool _ _ _ _ s => Some (pool, OCreatorSurplus s s)
  | IMigrationFee pool _ _ _ _ s f => Some (pool, OMigrationFee s s f)
  | ILeftover pool _ _ _ _ _ => Some (pool, OLeftover)
  | IPartnerCreationFee pool _ _ s => Some (pool, OPartnerCreationFee s s)
  | IProtocolCreationFee pool _ _ s => Some (pool, OProtocolCreationFee s)
  | ITransferCreator pool _ s n _ => Some (pool, OTransferCreator s n)
  | ICreateLocker pool _ _ _ _ => Some (pool, OCreateLocker)
  | ICreateMetadata pool _ _ => Some (pool, OCreateMetadata)
  | IMigrateV1 pool _ _ _ _ _ ok lp => Some (pool, OMigrateV1 ok lp)
  | IMigrateV2 pool _ _ _ _ _ x now => Some (pool, OMigrateV2 x now)
  | ILockLp pool _ _ _ o => Some (pool, OLockLp o)
  | IClaimLp pool _ _ _ _ o => Some (pool, OClaimLp o)
  | _ => None
  end.

(** Who may lose tokens from an account of their own. *)
Definition spender (i : instr) : option Z :=
  match i with
  | ISwap _ _ _ _ _ _ _ _ _ s _ _ _ _ _ _ => Some s
  | XOwner s _ _ _ => Some s
  | _ => None
  end.

(** The accounts of the pool hold what the handler computed, the others are untouched. *)
Record wrote (b : bank) (a : addr) (p : poolacct) (c : config) (w : world) (b2 : bank) : Prop := {
  wr_admins : b_admins b2 = b_admins b; wr_ops : b_ops b2 = b_ops b; wr_tr : b_treasury b2 = b_treasury b;
  wr_pool : b_acc b2 a = Some (APool (mkPoolAcct (w_pool w) (pa_config p) (pa_bmint p) (pa_bvault p)
                                        (pa_qvault p) (w_lamports w)));
  wr_tb : b_acc b2 (pa_bvault p) = Some (ATok (pa_bmint p) Auth (w_bvault w));
  wr_tq : b_acc b2 (pa_qvault p) = Some (ATok (c_quote_mint c) Auth (w_qvault w));
  wr_meta : meta_at b2 a = w_meta w;
  wr_lp : lp_at b2 a = w_lp w;
  wr_tok : b_acc b2 (MetaA a) = b_acc b (MetaA a) \/ b_acc b (MetaA a) = None
           \/ exists m vp l, b_acc b (MetaA a) = Some (AMeta m vp l);
  wr_else : forall y, b_acc b2 y = b_acc b y \/ touched b b2 a p y }.

Definition pool_done (s : option Z) (b : bank) (a : addr) (o : op) (b' : bank) : Prop :=
  exists p c v w wa wa' b1 b2, ran b a p c o v w wa wa' b1 /\ wrote b a p c w b2 /\ binv b2 /\ grows s b2 b'.

Lemma wrote_plain b a p c o v w wa wa' b1 : pool_op o = true -> meta_op o = false ->
  ran b a p c o v w wa wa' b1 -> wrote b a p c w b1.
Proof.
  intros PO MO RN. destruct (ran_stored _ _ _ _ _ _ _ _ _ _ RN) as (S1 & S2 & S3 & S4 & S5 & S6 & S7).
  destruct RN.
  assert (MA : b_acc b1 (MetaA a) = b_acc b (MetaA a)) by (apply S7; congruence).
  assert (LA : forall lm, b_acc b1 (AtaA Auth lm) = b_acc b (AtaA Auth lm)) by (intros; apply S7; congruence).
  destruct (exec_env _ _ _ PO MO rn_exec) as (E1 & E2 & E3 & E4 & E5 & E6).
  assert (meta_at b1 a = meta_at b a /\ lp_at b1 a = lp_at b a) as (M1 & M2).
  { unfold meta_at, lp_at. rewrite MA. split; [reflexivity|].
    destruct (b_acc b (MetaA a)) as [[| | | |? ? [lm|]]|]; try reflexivity. rewrite LA. reflexivity. }
  rewrite rn_view in E5, E6. simpl in E5, E6.
  constructor; auto; try congruence.
  intros y. destruct (addr_dec y a); [right; left; assumption|].
  destruct (addr_dec y (pa_bvault p)); [right; right; left; assumption|].
  destruct (addr_dec y (pa_qvault p)); [right; right; right; left; assumption|].
  left. apply S7; assumption.
Qed.

(** Handlers that do not touch the metadata. *)
Lemma plain_done s b a p o cfg bv qv m lp w b1 b' :
  binv b -> b_acc b a = Some (APool p) -> pool_op o = true -> meta_op o = false ->
  cfg = pa_config p -> bv = pa_bvault p -> qv = pa_qvault p -> m = meta_at b a -> lp = lp_at b a ->
  run_on b a cfg bv qv m lp o = Ok (w, b1) -> grows s b1 b' -> pool_done s b a o b'.
Proof.
  intros I P PO MO -> -> -> -> -> H G.
  destruct (run_on_ran _ _ _ _ _ _ _ _ _ _ _ I P PO eq_refl eq_refl eq_refl eq_refl eq_refl H)
    as (c & v & wa & wa' & RN).
  exists p, c, v, w, wa, wa', b1, b1. split; [exact RN|]. split; [eapply wrote_plain; eauto|].
  split; [eapply ran_binv; eauto|exact G].
Qed.

Ltac bo H := apply bind_ok in H; let v := fresh "v" in let E := fresh "E" in destruct H as (v & E & H).
Ltac chk :=
  repeat match goal with
  | H : same _ _ = Ok _ |- _ => apply same_ok in H
  | H : samek _ _ = Ok _ |- _ => apply samek_ok in H
  | H : load_pool _ _ = Ok _ |- _ => apply load_pool_ok in H
  | H : load_config _ _ = Ok _ |- _ => apply load_config_ok in H
  end.

Lemma swap_done b pool config bvault qvault bmint qmint inp out referral signer mode a0 a1 slot now v b' :
  let i := ISwap pool config bvault qvault bmint qmint inp out referral signer mode a0 a1 slot now v in
  binv b -> ix b i = Ok b' ->
  exists o, runs b i = Some (pool, o) /\ pool_done (spender i) b pool o b'.
Proof.
  intros i I H. eexists. split; [reflexivity|]. subst i. simpl in H. unfold exec_swap in H.
  do 6 bo H. chk. bo H. destruct v6 as [[mi oi] ni]. apply load_tok_ok in E5. do 2 bo H. bo H.
  destruct v8 as [w b1]. cbv zeta in H. bo H.
  rewrite E5. eapply plain_done; [exact I|eassumption|reflexivity|reflexivity| | | | | |exact E8|]; auto.
  eapply grows_trans; [eapply debit_grows; eassumption|eapply deliver_grows; eassumption].
Qed.

Lemma claim_partner_done b pool config bvault qvault bmint qmint ta tb s mb mq b' :
  binv b -> exec_claim_partner b pool config bvault qvault bmint qmint ta tb s mb mq = Ok b' ->
  pool_done None b pool (OClaimPartner s s mb mq) b'.
Proof.
  intros I H. unfold exec_claim_partner in H. do 11 bo H. chk. bo H. destruct v10 as [w b1].
  eapply plain_done; [exact I|eassumption|reflexivity|reflexivity| | | | | |exact E10|]; auto.
  eapply deliver_grows; eassumption.
Qed.
Lemma claim_creator_done b pool bvault qvault bmint qmint ta tb s mb mq b' :
  binv b -> exec_claim_creator b pool bvault qvault bmint qmint ta tb s mb mq = Ok b' ->
  pool_done None b pool (OClaimCreator s s mb mq) b'.
Proof.
  intros I H. unfold exec_claim_creator in H. do 8 bo H. chk. bo H. destruct v7 as [w b1].
  eapply plain_done; [exact I|eassumption|reflexivity|reflexivity| | | | | |exact E7|]; auto.
  eapply deliver_grows; eassumption.
Qed.
Lemma claim_protocol_done b pool config bvault qvault bmint qmint ta tb op s mb mq b' :
  binv b -> exec_claim_protocol b pool config bvault qvault bmint qmint ta tb op s mb mq = Ok b' ->
  pool_done None b pool (OClaimProtocol s mb mq) b'.
Proof.
  intros I H. unfold exec_claim_protocol in H. do 10 bo H. chk. bo H. destruct v9 as [w b1]. do 2 bo H.
  eapply plain_done; [exact I|eassumption|reflexivity|reflexivity| | | | | |exact E9|]; auto.
  eapply deliver_grows; eassumption.
Qed.
Lemma zap_done b pool config vault mint receiver op s ma al ok b' :
  binv b -> exec_zap b pool config vault mint receiver op s ma al ok = Ok b' ->
  exists o, runs b (IZap pool config vault mint receiver op s ma al ok) = Some (pool, o)
    /\ pool_done None b pool o b'.
Proof.
  intros I H. unfold exec_zap in H. do 2 bo H. do 4 bo H. cbv zeta in H. bo H. chk. bo H.
  destruct v6 as [w b1]. do 2 bo H. eexists. split; [simpl; rewrite E0; reflexivity|].
  eapply plain_done; [exact I|eassumption|reflexivity|reflexivity| | | | | |exact E6|]; auto.
  - destruct (mint =? pa_bmint v0); auto.
  - destruct (mint =? pa_bmint v0); auto.
  - eapply deliver_grows; eassumption.
Qed.
Lemma quote_payout_done b pool config qvault qmint dst o b' : pool_op o = true -> meta_op o = false ->
  binv b -> exec_quote_payout b pool config qvault qmint dst o = Ok b' -> pool_done None b pool o b'.
Proof.
  intros PO MO I H. unfold exec_quote_payout in H. do 7 bo H. chk. bo H. destruct v6 as [w b1].
  eapply plain_done; [exact I|eassumption|assumption|assumption| | | | | |exact E6|]; auto.
  eapply deliver_grows; eassumption.
Qed.
Lemma leftover_done b pool config bvault bmint dst r b' :
  binv b -> exec_leftover b pool config bvault bmint dst r = Ok b' -> pool_done None b pool OLeftover b'.
Proof.
  intros I H. unfold exec_leftover in H. do 8 bo H. chk. bo H. destruct v7 as [w b1].
  eapply plain_done; [exact I|eassumption|reflexivity|reflexivity| | | | | |exact E7|]; auto.
  eapply deliver_grows; eassumption.
Qed.
Lemma partner_creation_done b pool config r s b' :
  binv b -> exec_partner_creation b pool config r s = Ok b' -> pool_done None b pool (OPartnerCreationFee s s) b'.
Proof.
  intros I H. unfold exec_partner_creation in H. do 3 bo H. chk. bo H. destruct v2 as [w b1].
  eapply plain_done; [exact I|eassumption|reflexivity|reflexivity| | | | | |exact E2|]; auto.
  eapply deliver_grows; eassumption.
Qed.
Lemma protocol_creation_done b pool config op s b' :
  binv b -> exec_protocol_creation b pool config op s = Ok b' ->
  pool_done None b pool (OProtocolCreationFee s) b'.
Proof.
  intros I H. unfold exec_protocol_creation in H. do 4 bo H. chk. bo H. destruct v3 as [w b1].
  eapply plain_done; [exact I|eassumption|reflexivity|reflexivity| | | | | |exact E3|]; auto.
  eapply deliver_grows; eassumption.
Qed.

(** The metadata of a pool is at one address only. *)
Lemma meta_unique b x m vp l : binv b -> b_acc b x = Some (AMeta m vp l) ->
  x = MetaA vp /\ meta_at b vp = Some m.
Proof.
  intros I E. destruct (bi_meta _ I _ _ _ _ E) as (-> & _). split; [reflexivity|].
  unfold meta_at. rewrite E. reflexivity.
Qed.

Lemma transfer_creator_done b pool config s n meta b' :
  binv b -> exec_transfer_creator b pool config s n meta = Ok b' ->
  pool_done None b pool (OTransferCreator s n) b'.
Proof.
  intros I H. unfold exec_transfer_creator in H. do 3 bo H. chk. bo H. bo H. destruct v3 as [w b1].
  apply Ok_inj in H. simpl in H. subst b'.
  eapply plain_done; [exact I|eassumption|reflexivity|reflexivity| | | | | |exact E3|]; auto.
  - destruct ((_ =? _) && _).
    + bo E2. bo E2. destruct v4 as [[m vp] l]. bo E2. chk. apply Ok_inj in E2. subst v2 vp.
      apply load_meta_ok in E5. symmetry. eapply meta_unique; eauto.
    + apply Ok_inj in E2. congruence.
  - apply grows_refl.
Qed.
Lemma locker_done b pool config bvault bmint cr b' :
  binv b -> exec_locker b pool config bvault bmint cr = Ok b' -> pool_done None b pool OCreateLocker b'.
Proof.
  intros I H. unfold exec_locker in H. do 6 bo H. chk. bo H. destruct v5 as [w b1].
  apply Ok_inj in H. simpl in H. subst b'.
  eapply plain_done; [exact I|eassumption|reflexivity|reflexivity| | | | | |exact E5|]; auto.
  apply grows_refl.
Qed.
Lemma migrate_v2_done b pool config bvault qvault bmint qmint x now b' :
  binv b -> exec_migrate_v2 b pool config bvault qvault bmint qmint x now = Ok b' ->
  pool_done None b pool (OMigrateV2 x now) b'.
Proof.
  intros I H. unfold exec_migrate_v2 in H. do 6 bo H. chk. bo H. destruct v5 as [w b1].
  apply Ok_inj in H. simpl in H. subst b'.
  eapply plain_done; [exact I|eassumption|reflexivity|reflexivity| | | | | |exact E5|]; auto.
  apply grows_refl.
Qed.

(** ** Instructions that write the metadata *)
Lemma wrote_binv b a p c o v w wa wa' b1 b2 : binv b -> pool_op o = true ->
  ran b a p c o v w wa wa' b1 -> wrote b a p c w b2 ->
  (b_acc b2 (MetaA a) = b_acc b (MetaA a)
   \/ exists m l, b_acc b2 (MetaA a) = Some (AMeta m a l)
        /\ forall lm, l = Some lm -> ours b a lm /\ exists n, b_acc b2 (AtaA Auth lm) = Some (ATok lm Auth n)) ->
  binv b2.
Proof.
  intros I PO RN W M. destruct RN, W.
  destruct (exec_env0 _ _ _ PO rn_exec') as (E1 & E2 & E3 & E4).
  pose proof (sim_agree _ _ _ rn_sim) as AG.
  eapply local_binv with (w := wa') (p := p) (a := a); eauto.
  - eapply reachable_exec; eauto.
  - rewrite rn_view in rn_agree. destruct rn_agree, AG. simpl in *.
    constructor; unfold loaded; simpl; congruence.
Qed.

Lemma metadata_done b pool config meta b' :
  binv b -> exec_metadata b pool config meta = Ok b' -> pool_done None b pool OCreateMetadata b'.
Proof.
  intros I H. unfold exec_metadata in H. do 4 bo H. chk. apply require_ok in E2. apply unused_ok in E2.
  subst meta. bo H. destruct v3 as [w b1]. bo H. apply ok_or_ok in E3. apply Ok_inj in H. subst b'.
  assert (MA : meta_at b pool = None) by (unfold meta_at; rewrite E2; reflexivity).
  destruct (run_on_ran _ _ _ OCreateMetadata _ _ _ _ _ _ _ I E eq_refl (eq_sym E0) eq_refl eq_refl (eq_sym MA) eq_refl E1)
    as (c & v4 & wa & wa' & RN).
  destruct (ran_stored _ _ _ _ _ _ _ _ _ _ RN) as (S1 & S2 & S3 & S4 & S5 & S6 & S7).
  pose proof RN as RN0. destruct RN.
  assert (N1 : MetaA pool <> pool) by congruence.
  assert (N2 : MetaA pool <> pa_bvault v) by congruence.
  assert (N3 : MetaA pool <> pa_qvault v) by congruence.
  assert (W : wrote b pool v c w (put b1 (MetaA pool) (AMeta v3 pool None))).
  { constructor; rewrite ?put_other by assumption; auto.
    - unfold meta_at. rewrite put_same. congruence.
    - unfold lp_at. rewrite put_same. unfold exec in rn_exec. simpl in rn_exec.
      unfold create_v1_metadata in rn_exec. do 2 bo rn_exec. apply Ok_inj in rn_exec. subst w. simpl.
      rewrite rn_view. simpl. unfold lp_at. rewrite E2. reflexivity.
    - intros y. destruct (addr_dec y pool); [right; left; assumption|].
      destruct (addr_dec y (pa_bvault v)); [right; right; left; assumption|].
      destruct (addr_dec y (pa_qvault v)); [right; right; right; left; assumption|].
      destruct (addr_dec y (MetaA pool)); [right; right; right; right; left; assumption|].
      left. rewrite put_other by congruence. apply S7; assumption. }
  exists v, c, v4, w, wa, wa', b1. eexists. split; [exact RN0|]. split; [exact W|]. split; [|apply grows_refl].
  eapply wrote_binv; [exact I| |exact RN0|exact W|]; [reflexivity|]. right. exists v3, None. rewrite put_same. split; [reflexivity|]. discriminate.
Qed.

Lemma migrate_v1_done b pool config bvault qvault meta lm ok lp b' :
  binv b -> exec_migrate_v1 b pool config bvault qvault meta lm ok lp = Ok b' ->
  pool_done None b pool (OMigrateV1 ok lp) b'.
Proof.
  intros I H. unfold exec_migrate_v1 in H. do 5 bo H. destruct v3 as [[m vp] l]. do 3 bo H. chk.
  apply load_meta_ok in E3. apply require_ok in E5, E6. apply unused_ok in E5, E6. subst vp.
  destruct (meta_unique _ _ _ _ _ I E3) as (-> & MA).
  bo H. destruct v6 as [w b1]. bo H. apply ok_or_ok in E7. apply Ok_inj in H. subst b'.
  destruct (run_on_ran _ _ _ (OMigrateV1 ok lp) _ _ _ _ _ _ _ I E eq_refl (eq_sym E2) (eq_sym E0) (eq_sym E1) (eq_sym MA) eq_refl E4)
    as (c & v7 & wa & wa' & RN).
  destruct (ran_stored _ _ _ _ _ _ _ _ _ _ RN) as (S1 & S2 & S3 & S4 & S5 & S6 & S7).
  pose proof RN as RN0. destruct RN.
  match goal with |- pool_done _ _ _ _ ?x => set (b2 := x) end.
  assert (Y : forall y, y <> MetaA pool -> y <> Ext lm -> y <> AtaA Auth lm -> b_acc b2 y = b_acc b1 y).
  { intros. unfold b2. rewrite !put_other by congruence. reflexivity. }
  assert (YM : b_acc b2 (MetaA pool) = Some (AMeta v6 pool (Some lm))).
  { unfold b2. rewrite put_other, put_other, put_same by congruence. reflexivity. }
  assert (YA : b_acc b2 (AtaA Auth lm) = Some (ATok lm Auth (w_lp w))).
  { unfold b2. rewrite put_same. reflexivity. }
  assert (YE : b_acc b2 (Ext lm) = Some AMint).
  { unfold b2. rewrite put_other, put_same by congruence. reflexivity. }
  assert (W : wrote b pool v c w b2).
  { constructor; auto; try (rewrite Y by congruence; assumption).
    - unfold meta_at. rewrite YM. congruence.
    - unfold lp_at. rewrite YM, YA. reflexivity.
    - right. first [left; assumption | right; eauto].
    - intros y. destruct (addr_dec y pool); [right; left; assumption|].
      destruct (addr_dec y (pa_bvault v)); [right; right; left; assumption|].
      destruct (addr_dec y (pa_qvault v)); [right; right; right; left; assumption|].
      destruct (addr_dec y (MetaA pool)); [right; right; right; right; left; assumption|].
      destruct (addr_dec y (AtaA Auth lm)) as [->|].
      { right. right. right. right. right. left. exists lm, (w_lp w). split; [reflexivity|].
        split; [left; assumption|exact YA]. }
      destruct (addr_dec y (Ext lm)) as [->|]; [right; right; right; right; right; right; auto|].
      left. rewrite Y by assumption. apply S7; assumption. }
  exists v, c, v7, w, wa, wa', b1, b2. split; [exact RN0|]. split; [exact W|]. split; [|apply grows_refl].
  eapply wrote_binv; [exact I| |exact RN0|exact W|]; [reflexivity|]. right. exists v6, (Some lm). split; [exact YM|].
  intros lm' EL. injection EL as <-. split; [left; assumption|eauto].
Qed.

(** Locking and claiming LP tokens change nothing else. *)
Lemma lp_op_keeps w o w' : (exists k, o = OLockLp k) \/ (exists k, o = OClaimLp k) -> exec w o = Ok w' ->
  w_pool w' = w_pool w /\ w_bvault w' = w_bvault w /\ w_qvault w' = w_qvault w /\ w_lamports w' = w_lamports w.
Proof.
  intros [(k & ->)|(k & ->)] H; unfold exec in H; bo H; clear E; unfold lock_lp, claim_lp in H; do 2 bo H; bo H;
  destruct v2 as [m' n]; unfold pay_lp in H; bo H; apply Ok_inj in H; subst w'; auto.
Qed.

Lemma lp_op_done b pool meta lm source o w bx b2 m t p :
  binv b -> (exists k, o = OLockLp k) \/ (exists k, o = OClaimLp k) ->
  lp_accounts b pool meta lm source = Ok m -> load_pool b pool = Ok p -> load_tok b source = Ok t ->
  run_on b pool (pa_config p) (pa_bvault p) (pa_qvault p) (Some m) (snd t) o = Ok (w, bx) ->
  lp_store b pool meta lm source w = Ok b2 ->
  exists c v wa wa', ran b pool p c o v w wa wa' bx /\ wrote b pool p c w b2 /\ binv b2.
Proof.
  intros I O A P T H L. apply load_pool_ok in P. destruct t as [[mt ot] nt]. apply load_tok_ok in T.
  unfold lp_accounts in A. bo A. bo A. destruct v0 as [[m0 vp] l0]. do 4 bo A. chk. apply load_meta_ok in E0.
  apply ok_or_ok in E1. apply Ok_inj in A. subst m0 vp l0 v0.
  destruct (is_ata_ok _ _ _ _ _ E4) as (-> & n & TS). rewrite TS in T. injection T as <- <- <-.
  destruct (meta_unique _ _ _ _ _ I E0) as (-> & MA).
  assert (LA : lp_at b pool = n) by (unfold lp_at; rewrite E0, TS; reflexivity).
  cbn [snd] in H.
  assert (PO : pool_op o = true) by (destruct O as [(? & ->)|(? & ->)]; reflexivity).
  destruct (run_on_ran _ _ _ _ _ _ _ _ _ _ _ I P PO eq_refl eq_refl eq_refl (eq_sym MA) (eq_sym LA) H)
    as (c & v5 & wa & wa' & RN).
  pose proof RN as RN0. destruct RN.
  destruct (lp_op_keeps _ _ _ O rn_exec) as (K1 & K2 & K3 & K4).
  unfold lp_store in L. apply bind_ok in L. destruct L as (m2 & EM & L). apply ok_or_ok in EM. apply Ok_inj in L.
  assert (Y : forall y, y <> MetaA pool -> y <> AtaA Auth lm -> b_acc b2 y = b_acc b y).
  { intros. subst b2. rewrite !put_other by congruence. reflexivity. }
  assert (YM : b_acc b2 (MetaA pool) = Some (AMeta m2 pool (Some lm))).
  { subst b2. rewrite put_other, put_same by congruence. reflexivity. }
  assert (YA : b_acc b2 (AtaA Auth lm) = Some (ATok lm Auth (w_lp w))).
  { subst b2. rewrite put_same. reflexivity. }
  assert (OU : ours b pool lm) by (right; eauto).
  assert (W : wrote b pool p c w b2).
  { constructor; try (subst b2; reflexivity); try (rewrite Y by congruence).
    - rewrite P, K1, K4, rn_view. simpl. destruct p; reflexivity.
    - rewrite K2. assumption.
    - rewrite K3. assumption.
    - unfold meta_at. rewrite YM. congruence.
    - unfold lp_at. rewrite YM, YA. reflexivity.
    - right. first [left; assumption | right; eauto].
    - intros y.
      destruct (addr_dec y (MetaA pool)); [right; right; right; right; left; assumption|].
      destruct (addr_dec y (AtaA Auth lm)) as [->|].
      { right. right. right. right. right. left. exists lm, (w_lp w). auto. }
      left. apply Y; assumption. }
  exists c, v5, wa, wa'. split; [exact RN0|]. split; [exact W|].
  eapply wrote_binv; [exact I|exact PO|exact RN0|exact W|]. right. exists m2, (Some lm). split; [exact YM|].
  intros lm' EL. injection EL as <-. split; [assumption|eauto].
Qed.

Lemma lock_lp_done b pool meta lm source k b' :
  binv b -> exec_lock_lp b pool meta lm source k = Ok b' -> pool_done None b pool (OLockLp k) b'.
Proof.
  intros I H. unfold exec_lock_lp in H. do 4 bo H. destruct v2 as [w bx]. cbn [fst] in H.
  destruct (lp_op_done b pool meta lm source (OLockLp k) w bx b' v v1 v0 I (or_introl (ex_intro _ k eq_refl)) E E0 E1 E2 H)
    as (c & v5 & wa & wa' & RN & W & B).
  exists v0, c, v5, w, wa, wa', bx, b'. repeat (split; [assumption|]). apply grows_refl.
Qed.
Lemma claim_lp_done b pool meta lm source dst k b' :
  binv b -> exec_claim_lp b pool meta lm source dst k = Ok b' -> pool_done None b pool (OClaimLp k) b'.
Proof.
  intros I H. unfold exec_claim_lp in H. do 5 bo H. destruct v3 as [w bx]. cbn [fst] in H. bo H.
  destruct (lp_op_done b pool meta lm source (OClaimLp k) w bx v3 v v2 v1 I (or_intror (ex_intro _ k eq_refl)) E E1 E2 E3 E4)
    as (c & v5 & wa & wa' & RN & W & B).
  exists v1, c, v5, w, wa, wa', bx, v3. repeat (split; [assumption|]). eapply deliver_grows; eassumption.
Qed.

(** ** The other instructions *)
Lemma config_grows b key q su spl now qm cl lr b' s : params_typed q -> u64ok now ->
  exec_config b key q su spl now qm cl lr = Ok b' -> grows s b b'.
Proof.
  intros T U H. unfold exec_config in H. bo H. apply require_ok in E. apply unused_ok in E. bo H. bo H.
  apply Ok_inj in H. subst b'. apply grows_put. rewrite E. simpl. exists q, su, spl, now, qm, cl, lr. auto.
Qed.
Lemma owner_grows b s a o n b' : exec_owner b s a o n = Ok b' -> grows (Some s) b b'.
Proof.
  intros H. unfold exec_owner in H. bo H. destruct v as [[m o'] x]. apply load_tok_ok in E. do 2 bo H. chk.
  apply Ok_inj in H. subst b' o'. apply grows_put. rewrite E. simpl. rewrite Z.eqb_refl. eauto.
Qed.
Lemma account_grows s b a m o n b' : exec_account b a m o n = Ok b' -> grows s b b'.
Proof.
  intros H. unfold exec_account in H. do 4 bo H. apply require_ok in E. apply unused_ok in E.
  apply Ok_inj in H. subst b'. apply grows_put. rewrite E. exact I.
Qed.

(** A new pool: existing accounts are as before. *)
Lemma init_done b cfg bm qm cr pa ty slot now b' : binv b -> u64ok slot -> u64ok now ->
  exec_init b cfg bm qm cr pa ty slot now = Ok b' ->
  binv b' /\ b_admins b' = b_admins b /\ b_ops b' = b_ops b /\ b_treasury b' = b_treasury b
  /\ forall y x, b_acc b y = Some x -> b_acc b' y = Some x.
Proof.
  intros I US UN H. unfold exec_init in H. bo H. apply load_config_ok in E. do 2 bo H. apply samek_ok in E0.
  subst qm. apply load_mint_ok in E1. cbv zeta in H. bo H. apply require_ok in E0. apply unused_ok in E0.
  bo H. rename v3 into w. rename E2 into IP. rename v into c.
  set (a := PoolA cfg (Z.max bm (c_quote_mint c)) (Z.min bm (c_quote_mint c))) in *.
  set (bv := VaultA bm a) in *. set (qv := VaultA (c_quote_mint c) a) in *.
  set (b1 := put b (Ext bm) AMint) in *.
  bo H. apply require_ok in E2. apply unused_ok in E2.
  set (p := mkPoolAcct (w_pool w) cfg bm bv qv (w_lamports w)) in *.
  bo H. apply require_ok in E3. apply unused_ok in E3.
  bo H. apply require_ok in E4. apply unused_ok in E4. apply Ok_inj in H.
  assert (G : grows None b b1) by (apply grows_put; rewrite E0; exact Logic.I).
  pose proof (grows_binv _ _ _ I G) as I1.
  assert (NE : bm <> c_quote_mint c) by (intros ->; congruence).
  assert (NV : bv <> qv) by (unfold bv, qv; congruence).
  rewrite put_other in E3 by (unfold a, bv; congruence).
  rewrite put_other in E4 by congruence. rewrite put_other in E4 by (unfold a, qv; congruence).
  assert (Y : forall y, y <> a -> y <> bv -> y <> qv -> b_acc b' y = b_acc b1 y).
  { intros. subst b'. rewrite !put_other by congruence. reflexivity. }
  assert (YP : b_acc b' a = Some (APool p)).
  { subst b'. rewrite put_other by (unfold a, qv; congruence). rewrite put_other by (unfold a, bv; congruence).
    apply put_same. }
  assert (YB : b_acc b' bv = Some (ATok bm Auth (w_bvault w))).
  { subst b'. rewrite put_other by congruence. apply put_same. }
  assert (YQ : b_acc b' qv = Some (ATok (c_quote_mint c) Auth (w_qvault w))).
  { subst b'. apply put_same. }
  assert (KE : forall y x, b_acc b1 y = Some x -> b_acc b' y = Some x).
  { intros y x X. rewrite Y by congruence. exact X. }
  assert (OLD : forall y x, b_acc b' y = Some x -> y <> a -> y <> bv -> y <> qv -> b_acc b1 y = Some x).
  { intros y x X N1 N2 N3. rewrite <- Y by assumption. exact X. }
  assert (EXC : b_acc b1 (Ext cfg) = Some (AConfig c)) by (unfold b1; rewrite put_other by congruence; exact E).
  assert (MN : forall m v l, b_acc b' (MetaA a) <> Some (AMeta m v l)).
  { intros m v5 l X. rewrite Y in X by (unfold a, bv, qv; congruence).
    destruct (bi_meta _ I1 _ _ _ _ X) as (EV & (p1 & P1) & _). injection EV as <-. congruence. }
  assert (EQ : b_admins b' = b_admins b /\ b_ops b' = b_ops b /\ b_treasury b' = b_treasury b) by (subst b'; auto).
  split; [|destruct EQ as (Q1 & Q2 & Q3); repeat (split; [assumption|]); intros y x X; apply KE;
           unfold b1; rewrite put_other by congruence; exact X].
  assert (LT : forall lm n, b_acc b1 (AtaA Auth lm) = Some (ATok lm Auth n) -> b_acc b' (AtaA Auth lm) = Some (ATok lm Auth n))
    by (intros; apply KE; assumption).
  constructor.
  - intros y c0 X. destruct (addr_dec y a) as [->|N1]; [congruence|].
    destruct (addr_dec y bv) as [->|N2]; [congruence|]. destruct (addr_dec y qv) as [->|N3]; [congruence|].
    eapply bi_config; [exact I1|]. eapply OLD; eauto.
  - intros a0 p0 X. destruct (addr_dec a0 a) as [->|N1].
    + assert (p0 = p) by congruence. subst p0. exists c, (w_bvault w), (w_qvault w), w. cbn [p pa_config pa_bmint pa_bvault pa_qvault].
      split; [apply KE; exact EXC|]. do 4 (split; [auto|]). split; [exact YB|]. split; [exact YQ|].
      split.
      { exists w, []. split; [|reflexivity]. exists c, (code a), cr, pa, ty, slot, now, (b_admins b), (b_ops b).
        split; [eapply bi_config; eauto|]. auto. }
      assert (meta_at b' a = None /\ lp_at b' a = 0) as (-> & ->).
      { unfold meta_at, lp_at. destruct (b_acc b' (MetaA a)) as [[| | | |m v5 l]|] eqn:M; auto.
        exfalso. eapply MN. reflexivity. }
      destruct EQ as (Q1 & Q2 & _). unfold initialize_pool in IP. do 8 bo IP. apply Ok_inj in IP.
      unfold p, loaded. rewrite <- IP. constructor; simpl; auto; lia.
    + destruct (addr_dec a0 bv) as [->|N2]; [congruence|]. destruct (addr_dec a0 qv) as [->|N3]; [congruence|].
      pose proof (OLD _ _ X N1 N2 N3) as X0.
      destruct (bi_pool _ I1 _ _ X0) as (c1 & nb1 & nq1 & w1 & C1 & A1 & BV1 & QV1 & NE1 & TB1 & TQ1 & R1 & S1).
      exists c1, nb1, nq1, w1. split; [apply KE; exact C1|]. do 4 (split; [assumption|]).
      split; [apply KE; assumption|]. split; [apply KE; assumption|]. split; [assumption|].
      assert (MA : b_acc b' (MetaA a0) = b_acc b1 (MetaA a0)) by (apply Y; unfold a, bv, qv; congruence).
      assert (meta_at b' a0 = meta_at b1 a0 /\ lp_at b' a0 = lp_at b1 a0) as (-> & ->).
      { unfold meta_at, lp_at. rewrite MA. split; [reflexivity|].
        destruct (b_acc b1 (MetaA a0)) as [[| | | |? ? [lm|]]|]; try reflexivity.
        rewrite Y by (unfold a, bv, qv; congruence). reflexivity. }
      destruct EQ as (Q1 & Q2 & _). unfold loaded in *. rewrite Q1, Q2. exact S1.
  - intros x m vp l X.
    assert (X0 : b_acc b1 x = Some (AMeta m vp l)).
    { apply OLD; [exact X|..]; intros ->; congruence. }
    destruct (bi_meta _ I1 _ _ _ _ X0) as (EV & (p1 & P1) & L). split; [exact EV|]. split; [eauto|].
    intros lm EL. destruct (L lm EL) as (n & T). eauto.
  - intros x x' m m' vp vp' lm X X'.
    eapply (bi_lp _ I1); [apply OLD; [exact X|..]|apply OLD; [exact X'|..]]; intros ->; congruence.
Qed.

(** Operator accounts: every pool sees the same change. *)
Lemma operators_binv b l (o : op) : binv b ->
  (forall w, w_admins w = b_admins b -> w_operators w = b_ops b -> exec w o = Ok (set_w_operators w l)) ->
  binv (set_b_ops b l).
Proof.
  intros I X. constructor.
  - intros y c E. eapply (bi_config _ I). exact E.
  - intros a p E. destruct (bi_pool _ I _ _ E) as (c & nb & nq & w & C & A & BV & QV & NE & TB & TQ & R & S).
    exists c, nb, nq, (set_w_operators w l). repeat (split; [assumption|]). split.
    + eapply reachable_exec; [exact R|]. destruct S. simpl in *. apply X; assumption.
    + destruct S. constructor; simpl in *; auto.
  - intros. eapply (bi_meta _ I). eassumption.
  - intros. eapply (bi_lp _ I); eassumption.
Qed.

Lemma create_operator_binv b s who perm b' : binv b -> exec_create_operator b s who perm = Ok b' -> binv b'.
Proof.
  intros I H. unfold exec_create_operator, admin in H. do 3 bo H. apply Ok_inj in H. subst b'.
  apply operators_binv with (o := OCreateOperator s who perm); [exact I|].
  intros w A O. unfold exec. cbn [args_ok].
  apply require_ok in E1. replace ((0 <=? perm) && (perm <=? U128_MAX)) with true.
  2: { symmetry. unfold U128_MAX. apply andb_true_iff. split; lia. }
  cbn [bind require]. unfold create_operator, check_admin. rewrite A, O, E. cbn [bind]. rewrite E0. cbn [bind].
  rewrite E1. reflexivity.
Qed.
Lemma close_operator_binv b s who b' : binv b -> exec_close_operator b s who = Ok b' -> binv b'.
Proof.
  intros I H. unfold exec_close_operator, admin in H. do 2 bo H. apply Ok_inj in H. subst b'.
  apply operators_binv with (o := OCloseOperator s who); [exact I|].
  intros w A O. unfold exec. cbn [args_ok bind require]. unfold close_operator, check_admin. rewrite A, O, E. cbn [bind].
  rewrite E0. reflexivity.
Qed.

(** ** All instructions *)
Inductive outcome (b : bank) (i : instr) (b' : bank) : Prop :=
  | oc_pool a o : runs b i = Some (a, o) -> pool_done (spender i) b a o b' -> outcome b i b'
  | oc_grow : runs b i = None -> grows (spender i) b b' -> outcome b i b'
  | oc_keep : runs b i = None -> (forall y x, b_acc b y = Some x -> b_acc b' y = Some x) -> outcome b i b'.

Lemma ix_outcome b i b' : binv b -> typed i -> ix b i = Ok b' -> outcome b i b' /\ binv b'.
Proof.
  intros I T H.
  assert (P : forall a o, runs b i = Some (a, o) -> pool_done (spender i) b a o b' -> outcome b i b' /\ binv b').
  { intros a o R D. split; [eapply oc_pool; eauto|]. destruct D as (p & c & v & w & wa & wa' & b1 & b2 & _ & _ & B & G).
    eapply grows_binv; eauto. }
  assert (GR : runs b i = None -> grows (spender i) b b' -> outcome b i b' /\ binv b').
  { intros R G. split; [apply oc_grow; assumption|]. eapply grows_binv; eauto. }
  destruct i; simpl in H.
  - destruct T. apply GR; [reflexivity|]. eapply config_grows; eauto.
  - destruct T. destruct (init_done _ _ _ _ _ _ _ _ _ _ I H0 H1 H) as (B & _ & _ & _ & K).
    split; [apply oc_keep; auto|exact B].
  - destruct (swap_done _ _ _ _ _ _ _ _ _ _ _ _ _ _ _ _ _ _ I H) as (o & R & D). eapply P; eauto.
  - eapply P; [reflexivity|]. eapply claim_partner_done; eauto.
  - eapply P; [reflexivity|]. eapply claim_creator_done; eauto.
  - eapply P; [reflexivity|]. eapply claim_protocol_done; eauto.
  - destruct (zap_done _ _ _ _ _ _ _ _ _ _ _ _ I H) as (o & R & D). eapply P; eauto.
  - eapply P; [reflexivity|]. eapply quote_payout_done; eauto.
  - eapply P; [reflexivity|]. eapply quote_payout_done; eauto.
  - eapply P; [reflexivity|]. eapply quote_payout_done; eauto.
  - eapply P; [reflexivity|]. eapply leftover_done; eauto.
  - eapply P; [reflexivity|]. eapply partner_creation_done; eauto.
  - eapply P; [reflexivity|]. eapply protocol_creation_done; eauto.
  - eapply P; [reflexivity|]. eapply transfer_creator_done; eauto.
  - eapply P; [reflexivity|]. eapply locker_done; eauto.
  - eapply P; [reflexivity|]. eapply metadata_done; eauto.
  - eapply P; [reflexivity|]. eapply migrate_v1_done; eauto.
  - eapply P; [reflexivity|]. eapply migrate_v2_done; eauto.
  - eapply P; [reflexivity|]. eapply lock_lp_done; eauto.
  - eapply P; [reflexivity|]. eapply claim_lp_done; eauto.
  - split; [|eapply create_operator_binv; eauto]. apply oc_keep; [reflexivity|].
    unfold exec_create_operator in H. do 3 bo H. apply Ok_inj in H. subst b'. auto.
  - split; [|eapply close_operator_binv; eauto]. apply oc_keep; [reflexivity|].
    unfold exec_close_operator in H. do 2 bo H. apply Ok_inj in H. subst b'. auto.
  - apply GR; [reflexivity|]. eapply credit_grows; eauto.
  - apply GR; [reflexivity|]. eapply credit_sol_grows; eauto.
  - apply GR; [reflexivity|]. eapply owner_grows; eauto.
  - apply GR; [reflexivity|]. bo H. apply require_ok in E. apply unused_ok in E. apply Ok_inj in H. subst b'.
    apply grows_put. rewrite E. exact Logic.I.
  - apply GR; [reflexivity|]. eapply account_grows; eauto.
Qed.

Lemma brun_binv is : forall b, binv b -> Forall typed is -> binv (brun b is).
Proof.
  induction is as [|i is IH]; intros b I T; [exact I|]. inversion T; subst.
  change (brun b (i :: is)) with (brun (bstep b i) is). apply IH; [|assumption].
  unfold bstep. destruct (ix b i) eqn:E; [|exact I]. eapply ix_outcome; eauto.
Qed.
