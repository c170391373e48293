(** * C81: nobody can keep a pool from being opened

    A pool, its vaults and its migration metadata live at addresses derived from the config and the
    mints. If anybody could put something else there first, the pool could never be created. Here: only
    pools, vaults and metadata are ever found at derived addresses; hence whoever brings a fresh mint
    and an accepted config whose supply fits opens a pool, and whoever asks for the metadata when it is
    due gets it, after every history. *)
From Coq Require Import ZArith List Bool Lia ZifyBool.
From Verif Require Import Base MathModel CurveModel FeeModel ConfigModel PoolModel TxModel SystemModel
  Lib Spec CurveProofs ConfigProofs FeeProofs Live SwapProofs InvProofs InvReach Effects Frame
  AcctModel AcctSim AcctInv AcctSpec AcctStep PropAcct PropHonest PropRight Fixtures FixturesReach.
Import ListNotations.
Open Scope Z_scope.
#[local] Arguments Z.pow : simpl never.

(** ** What never changes about an account, and what an instruction may create *)
Inductive kind := KMint | KConfig (c : config) | KPool (cfg bm : Z) (bv qv : addr) | KTok (m : Z) | KMeta (a : addr).
Definition kind_of (x : acct) : kind :=
  match x with
  | AMint => KMint
  | AConfig c => KConfig c
  | APool p => KPool (pa_config p) (pa_bmint p) (pa_bvault p) (pa_qvault p)
  | ATok m _ _ => KTok m
  | AMeta _ v _ => KMeta v
  end.
(** Accounts stay what they are, and nothing new appears outside [s]. *)
Definition lk (s : addr -> Prop) (b b' : bank) : Prop :=
  forall y, match b_acc b y with
            | Some x => exists x', b_acc b' y = Some x' /\ kind_of x' = kind_of x
            | None => b_acc b' y = None \/ s y
            end.
Definition none (_ : addr) : Prop := False.

Lemma lk_refl s b : lk s b b.
Proof. intros y. destruct (b_acc b y); eauto. Qed.
Lemma lk_trans s a b c : lk s a b -> lk s b c -> lk s a c.
Proof.
  intros A B y. specialize (A y). specialize (B y). destruct (b_acc a y) as [x|].
  - destruct A as (x' & E & K). rewrite E in B. destruct B as (x2 & E2 & K2). exists x2. split; [exact E2|congruence].
  - destruct A as [E|A]; [rewrite E in B; exact B|right; exact A].
Qed.
Lemma lk_put s b a x : match b_acc b a with Some x0 => kind_of x = kind_of x0 | None => s a end ->
  lk s b (put b a x).
Proof.
  intros H y. destruct (addr_dec a y) as [<-|N].
  - rewrite put_same. destruct (b_acc b a); [eauto|]. right. exact H.
  - rewrite put_other by assumption. destruct (b_acc b y); eauto.
Qed.
Lemma lk_credit s b a m n b' : credit b a m n = Ok b' -> lk s b b'.
Proof.
  intros H. unfold credit in H. bn H t E. destruct t as [[m' o] x]. apply load_tok_ok in E. do 3 bs H. apply Ok_inj in H. subst b'.
  apply lk_put. rewrite E. reflexivity.
Qed.
Lemma lk_debit s b a m k n b' : debit b a m k n = Ok b' -> lk s b b'.
Proof.
  intros H. apply debit_ok in H. destruct H as (x & L & _ & ->). apply lk_put. rewrite L. reflexivity.
Qed.
Lemma lk_credit_sol s b a n b' : credit_sol b a n = Ok b' -> lk s b b'.
Proof.
  intros H. unfold credit_sol in H. bs H. destruct (b_acc b a) as [x|] eqn:E; [|apply Ok_inj in H; subst; apply lk_refl].
  destruct x; apply Ok_inj in H; subst; try apply lk_refl. apply lk_put. rewrite E. reflexivity.
Qed.
Lemma lk_deliver s mo ts : forall b ds b', deliver b mo ts ds = Ok b' -> lk s b b'.
Proof.
  induction ts as [|t ts IH]; intros b ds b' H; simpl in H; [apply Ok_inj in H; subst; apply lk_refl|].
  destruct (leaves t); [|eauto]. destruct (take_dst (t_token t) ds) as [[a ds']|]; [|discriminate H].
  bn H b1 E. eapply lk_trans; [|eapply IH; exact H].
  destruct (t_token t); first [eapply lk_credit; exact E|eapply lk_credit_sol; exact E].
Qed.
Lemma lk_stored s b a p bv qv w : b_acc b a = Some (APool p) -> lk s b (stored b a p bv qv w).
Proof.
  intros P. unfold stored. set (b1 := put b a _).
  assert (L1 : lk s b b1) by (apply lk_put; rewrite P; reflexivity).
  set (b2 := match b_acc b1 bv with Some (ATok m o _) => _ | _ => _ end).
  assert (L2 : lk s b1 b2).
  { unfold b2. destruct (b_acc b1 bv) as [[]|] eqn:E; try apply lk_refl. apply lk_put. rewrite E. reflexivity. }
  eapply lk_trans; [exact L1|]. eapply lk_trans; [exact L2|].
  destruct (b_acc b2 qv) as [[]|] eqn:E; try apply lk_refl. apply lk_put. rewrite E. reflexivity.
Qed.
Lemma lk_run s b a cfg bv qv m lp o w b1 : run_on b a cfg bv qv m lp o = Ok (w, b1) -> lk s b b1.
Proof.
  intros H. unfold run_on in H. bn H p E. apply load_pool_ok in E. do 4 bs H. apply Ok_inj in H. injection H as <- <-.
  apply lk_stored. exact E.
Qed.
Lemma lk_lp s b a meta lm src w b' m : lp_accounts b a meta lm src = Ok m ->
  lp_store b a meta lm src w = Ok b' -> lk s b b'.
Proof.
  intros A H. unfold lp_accounts in A. bs A. bn A t ET. destruct t as [[m0 vp] l]. bn A l0 EL. do 2 bs A. bn A u5 E5. chk.
  apply load_meta_ok in ET. apply ok_or_ok in EL. subst l l0 vp. destruct (is_ata_ok _ _ _ _ _ E5) as (_ & n & TS).
  unfold lp_store in H. bs H. apply Ok_inj in H. subst b'.
  eapply lk_trans; apply lk_put; [rewrite ET; reflexivity|].
  rewrite put_other by congruence. rewrite TS. reflexivity.
Qed.

(** The accounts an instruction may create. *)
Definition creates (i : instr) (y : addr) : Prop :=
  match i with
  | ICreateConfig key _ _ _ _ _ _ _ => y = Ext key
  | IInitPool k bm qm _ _ _ _ _ =>
    let a := PoolA k (Z.max bm qm) (Z.min bm qm) in y = Ext bm \/ y = a \/ y = VaultA bm a \/ y = VaultA qm a
  | ICreateMetadata a _ _ => y = MetaA a
  | IMigrateV1 _ _ _ _ _ lm _ _ => y = Ext lm \/ y = AtaA Auth lm
  | XMint m => y = Ext m
  | XAccount a _ _ _ => y = a /\ match a with Ext _ | AtaA _ _ => True | _ => False end
  | _ => False
  end.

Lemma lk_ix b i b' : ix b i = Ok b' -> lk (creates i) b b'.
Proof.
  intros H. destruct i; simpl in H.
  - unfold exec_config in H. bn H u1 E1. apply require_ok in E1. apply unused_ok in E1. bs H. bs H. apply Ok_inj in H.
    subst b'. apply lk_put. rewrite E1. reflexivity.
  - unfold exec_init in H. do 3 bs H. cbv zeta in H.
    bn H u3 E3. apply require_ok in E3. apply unused_ok in E3. bn H w EW.
    bn H u4 E4. apply require_ok in E4. apply unused_ok in E4.
    bn H u5 E5. apply require_ok in E5. apply unused_ok in E5.
    bn H u6 E6. apply require_ok in E6. apply unused_ok in E6. apply Ok_inj in H. subst b'.
    eapply lk_trans; [eapply lk_trans; [eapply lk_trans|]|]; apply lk_put.
    + rewrite E3. simpl. auto.
    + rewrite E4. simpl. auto.
    + rewrite E5. simpl. auto.
    + rewrite E6. simpl. auto.
  - unfold exec_swap in H. do 6 bs H. bn H t E. destruct t as [[mi oi] ni]. do 2 bs H. cbv zeta in H.
    bn H r ER. destruct r as [w b1]. bn H b2 ED.
    eapply lk_trans; [eapply lk_run; exact ER|]. eapply lk_trans; [eapply lk_debit; exact ED|eapply lk_deliver; exact H].
  - unfold exec_claim_partner in H. do 11 bs H. bn H r ER. destruct r as [w b1].
    eapply lk_trans; [eapply lk_run; exact ER|eapply lk_deliver; exact H].
  - unfold exec_claim_creator in H. do 8 bs H. bn H r ER. destruct r as [w b1].
    eapply lk_trans; [eapply lk_run; exact ER|eapply lk_deliver; exact H].
  - unfold exec_claim_protocol in H. do 10 bs H. bn H r ER. destruct r as [w b1]. do 2 bs H.
    eapply lk_trans; [eapply lk_run; exact ER|eapply lk_deliver; exact H].
  - unfold exec_zap in H. do 6 bs H. cbv zeta in H. bs H. bn H r ER. destruct r as [w b1]. do 2 bs H.
    eapply lk_trans; [eapply lk_run; exact ER|eapply lk_deliver; exact H].
  - unfold exec_quote_payout in H. do 7 bs H. bn H r ER. destruct r as [w b1].
    eapply lk_trans; [eapply lk_run; exact ER|eapply lk_deliver; exact H].
  - unfold exec_quote_payout in H. do 7 bs H. bn H r ER. destruct r as [w b1].
    eapply lk_trans; [eapply lk_run; exact ER|eapply lk_deliver; exact H].
  - unfold exec_quote_payout in H. do 7 bs H. bn H r ER. destruct r as [w b1].
    eapply lk_trans; [eapply lk_run; exact ER|eapply lk_deliver; exact H].
  - unfold exec_leftover in H. do 8 bs H. bn H r ER. destruct r as [w b1].
    eapply lk_trans; [eapply lk_run; exact ER|eapply lk_deliver; exact H].
  - unfold exec_partner_creation in H. do 3 bs H. bn H r ER. destruct r as [w b1].
    eapply lk_trans; [eapply lk_run; exact ER|eapply lk_deliver; exact H].
  - unfold exec_protocol_creation in H. do 4 bs H. bn H r ER. destruct r as [w b1].
    eapply lk_trans; [eapply lk_run; exact ER|eapply lk_deliver; exact H].
  - unfold exec_transfer_creator in H. do 4 bs H. bn H r ER. destruct r as [w b1].
    apply Ok_inj in H. subst b'. eapply lk_run; exact ER.
  - unfold exec_locker in H. do 6 bs H. bn H r ER. destruct r as [w b1].
    apply Ok_inj in H. subst b'. eapply lk_run; exact ER.
  - unfold exec_metadata in H. do 2 bs H. bn H u1 E1. apply same_ok in E1. subst meta.
    bn H u2 E2. apply require_ok in E2. apply unused_ok in E2. bn H r ER. destruct r as [w b1]. bs H. apply Ok_inj in H. subst b'.
    pose proof (lk_run none _ _ _ _ _ _ _ _ _ _ ER) as L.
    eapply lk_trans; [eapply lk_run; exact ER|]. apply lk_put.
    specialize (L (MetaA pool)). rewrite E2 in L. destruct L as [->|[]]. reflexivity.
  - unfold exec_migrate_v1 in H. do 4 bs H. bn H t ET. destruct t as [[m0 vp] l]. apply load_meta_ok in ET.
    bn H y0 E0. apply same_ok in E0. subst vp.
    bn H y1 E1. apply require_ok in E1. apply unused_ok in E1. bn H y2 E2. apply require_ok in E2. apply unused_ok in E2.
    bn H r ER. destruct r as [w b1]. bn H y3 E3. apply Ok_inj in H. subst b'.
    pose proof (lk_run none _ _ _ _ _ _ _ _ _ _ ER) as L.
    eapply lk_trans; [eapply lk_run; exact ER|].
    assert (L1 : lk (creates (IMigrateV1 pool config bvault qvault meta lp_mint config_ok lp)) b1
                    (put b1 meta (AMeta y3 pool (Some lp_mint)))).
    { apply lk_put. specialize (L meta). rewrite ET in L. destruct L as (x' & -> & K). rewrite K. reflexivity. }
    eapply lk_trans; [exact L1|]. eapply lk_trans; apply lk_put.
    + assert (N : meta <> Ext lp_mint) by congruence. rewrite put_other by exact N.
      specialize (L (Ext lp_mint)). rewrite E1 in L. destruct L as [->|[]]. left. reflexivity.
    + assert (N : meta <> AtaA Auth lp_mint) by congruence. rewrite put_other by congruence. rewrite put_other by exact N.
      specialize (L (AtaA Auth lp_mint)). rewrite E2 in L. destruct L as [->|[]]. right. reflexivity.
  - unfold exec_migrate_v2 in H. do 6 bs H. bn H r ER. destruct r as [w b1].
    apply Ok_inj in H. subst b'. eapply lk_run; exact ER.
  - unfold exec_lock_lp in H. bn H m E. bs H. bs H. bs H. revert H. eapply lk_lp with (m := m). exact E.
  - unfold exec_claim_lp in H. bn H m E. do 4 bs H. bn H b1 EB.
    eapply lk_trans; [eapply lk_lp; [exact E|exact EB]|eapply lk_deliver; exact H].
  - unfold exec_create_operator in H. do 3 bs H. apply Ok_inj in H. subst b'. exact (lk_refl _ b).
  - unfold exec_close_operator in H. do 2 bs H. apply Ok_inj in H. subst b'. exact (lk_refl _ b).
  - eapply lk_credit; exact H.
  - eapply lk_credit_sol; exact H.
  - unfold exec_owner in H. bn H t E. destruct t as [[m o] x]. apply load_tok_ok in E. do 2 bs H. apply Ok_inj in H. subst b'.
    apply lk_put. rewrite E. reflexivity.
  - bn H u E. apply require_ok in E. apply unused_ok in E. apply Ok_inj in H. subst b'. apply lk_put. rewrite E. reflexivity.
  - unfold exec_account in H. bn H u E. apply require_ok in E. apply unused_ok in E. do 2 bs H. bn H y1 E1.
    apply require_ok in E1. apply Ok_inj in H. subst b'. apply lk_put. rewrite E. split; [reflexivity|].
    destruct a; auto; discriminate E1.
Qed.

(** ** What is found at derived addresses *)
Record tidy (b : bank) : Prop := {
  ti_pool : forall k h l x, b_acc b (PoolA k h l) = Some x -> exists p, x = APool p;
  ti_vault : forall m a x, b_acc b (VaultA m a) = Some x ->
    exists p, b_acc b a = Some (APool p) /\ (pa_bvault p = VaultA m a \/ pa_qvault p = VaultA m a);
  ti_meta : forall a x, b_acc b (MetaA a) = Some x -> exists m l, x = AMeta m a l;
  ti_auth : b_acc b Auth = None;
  ti_mint : forall k c, b_acc b (Ext k) = Some (AConfig c) -> b_acc b (Ext (c_quote_mint c)) = Some AMint }.

Lemma kind_pool x p : kind_of x = kind_of (APool p) -> exists p', x = APool p'
  /\ pa_config p' = pa_config p /\ pa_bmint p' = pa_bmint p /\ pa_bvault p' = pa_bvault p /\ pa_qvault p' = pa_qvault p.
Proof. destruct x; simpl; intros H; try discriminate H. injection H as A B C D. eauto 10. Qed.

Lemma init_shape b k bm qm cr pa ty slot now b' : exec_init b k bm qm cr pa ty slot now = Ok b' ->
  let a := PoolA k (Z.max bm qm) (Z.min bm qm) in
  b_acc b' (Ext bm) = Some AMint
  /\ exists p, b_acc b' a = Some (APool p) /\ pa_config p = k /\ pa_bmint p = bm
     /\ pa_bvault p = VaultA bm a /\ pa_qvault p = VaultA qm a.
Proof.
  intros H a. unfold exec_init in H. do 3 bs H. cbv zeta in H. fold a in H.
  bs H. bn H w EW. do 3 bs H. apply Ok_inj in H. subst b'. split.
  - rewrite !put_other by (unfold a; congruence). apply put_same.
  - rewrite !put_other by (unfold a; congruence). rewrite put_same. eexists. split; [reflexivity|]. auto.
Qed.

Lemma tidy_step b i b' : tidy b -> ix b i = Ok b' -> tidy b'.
Proof.
  intros T H. pose proof (lk_ix _ _ _ H) as L. constructor.
  - intros k h l x E. specialize (L (PoolA k h l)). destruct (b_acc b (PoolA k h l)) as [x0|] eqn:E0.
    + destruct L as (x' & E' & K). rewrite E' in E. injection E as ->.
      destruct (ti_pool _ T _ _ _ _ E0) as (p & ->). apply kind_pool in K. destruct K as (p' & -> & _). eauto.
    + destruct L as [L|L]; [congruence|]. destruct i; simpl in L; try contradiction; try discriminate L.
      * destruct L as [L|[L|[L|L]]]; try discriminate L. simpl in H.
        destruct (init_shape _ _ _ _ _ _ _ _ _ _ H) as (_ & p & P & _). rewrite <- L, E in P. injection P as ->. eauto.
      * destruct L as [L|L]; discriminate L.
      * destruct L as (<- & []).
  - intros m a x E. specialize (L (VaultA m a)) as LV. destruct (b_acc b (VaultA m a)) as [x0|] eqn:E0.
    + destruct (ti_vault _ T _ _ _ E0) as (p & P & V). specialize (L a). rewrite P in L.
      destruct L as (x' & E' & K). apply kind_pool in K. destruct K as (p' & -> & _ & _ & K3 & K4).
      exists p'. rewrite K3, K4. auto.
    + destruct LV as [LV|LV]; [congruence|]. destruct i; simpl in LV; try contradiction; try discriminate LV.
      * simpl in H. destruct (init_shape _ _ _ _ _ _ _ _ _ _ H) as (_ & p & P & _ & _ & V1 & V2).
        destruct LV as [LV|[LV|[LV|LV]]]; try discriminate LV; injection LV as -> ->; exists p; auto.
      * destruct LV as [LV|LV]; discriminate LV.
      * destruct LV as (<- & []).
  - intros a x E. specialize (L (MetaA a)). destruct (b_acc b (MetaA a)) as [x0|] eqn:E0.
    + destruct L as (x' & E' & K). rewrite E' in E. injection E as ->.
      destruct (ti_meta _ T _ _ E0) as (m & l & ->). destruct x; simpl in K; try discriminate K. injection K as ->. eauto.
    + destruct L as [L|L]; [congruence|]. destruct i; simpl in L; try contradiction; try discriminate L.
      * destruct L as [L|[L|[L|L]]]; discriminate L.
      * injection L as ->. simpl in H. unfold exec_metadata in H. do 2 bs H. bn H y1 E1. apply same_ok in E1. subst meta.
        bs H. bn H r ER. destruct r as [w b1]. bs H. apply Ok_inj in H. subst b'. rewrite put_same in E. injection E as <-. eauto.
      * destruct L as [L|L]; discriminate L.
      * destruct L as (<- & []).
  - specialize (L Auth). rewrite (ti_auth _ T) in L. destruct L as [L|L]; [exact L|]. exfalso.
    destruct i; simpl in L; try contradiction; try discriminate L.
    + destruct L as [L|[L|[L|L]]]; discriminate L.
    + destruct L as [L|L]; discriminate L.
    + destruct L as (<- & []).
  - assert (KM : forall y, b_acc b y = Some AMint -> b_acc b' y = Some AMint).
    { intros y E. specialize (L y). rewrite E in L. destruct L as (x' & -> & K). destruct x'; simpl in K; try discriminate K. reflexivity. }
    intros k c E. specialize (L (Ext k)) as LK. destruct (b_acc b (Ext k)) as [x0|] eqn:E0.
    + destruct LK as (x' & E' & K). rewrite E' in E. injection E as ->. destruct x0; simpl in K; try discriminate K.
      injection K as <-. apply KM. eapply ti_mint; eauto.
    + destruct LK as [LK|LK]; [congruence|]. destruct i; simpl in LK; try contradiction; try discriminate LK.
      * destruct (C80_only_fresh_accounts _ _ _ H) as (F & _).
        destruct (F _ _ _ _ _ _ _ _ eq_refl) as (_ & M & c0 & C0 & Q). injection LK as ->.
        rewrite C0 in E. injection E as ->. rewrite Q. apply KM. exact M.
      * exfalso. simpl in H. destruct (init_shape _ _ _ _ _ _ _ _ _ _ H) as (M & _).
        destruct LK as [LK|[LK|[LK|LK]]]; try discriminate LK. congruence.
      * exfalso. destruct LK as [LK|LK]; [|discriminate LK]. injection LK as ->. simpl in H. unfold exec_migrate_v1 in H.
        do 4 bs H. bn H t ET. destruct t as [[m0 vp] l]. do 3 bs H. bn H r ER. destruct r as [w b1]. bs H. apply Ok_inj in H. subst b'.
        rewrite put_other, put_same in E by congruence. discriminate E.
      * exfalso. injection LK as ->. simpl in H. bs H. apply Ok_inj in H. subst b'. rewrite put_same in E. discriminate E.
      * exfalso. destruct LK as (<- & _). simpl in H. unfold exec_account in H. do 4 bs H. apply Ok_inj in H. subst b'.
        rewrite put_same in E. discriminate E.
Qed.

Lemma history_tidy b : history b -> tidy b.
Proof.
  intros (ad & t & is & _ & ->). assert (T : tidy (genesis ad t)) by (constructor; simpl; auto; discriminate).
  revert T. generalize (genesis ad t). induction is as [|i is IH]; intros b T; [exact T|].
  change (brun b (i :: is)) with (brun (bstep b i) is). apply IH. unfold bstep.
  destruct (ix b i) eqn:E; [eapply tidy_step; eauto|exact T].
Qed.

(** Only this program's accounts are found at the addresses it derives. *)
Theorem C81_nobody_squats : forall b, history b ->
  (forall k h l x, b_acc b (PoolA k h l) = Some x -> exists p, x = APool p)
  /\ (forall m a x, b_acc b (VaultA m a) = Some x -> exists p n, b_acc b a = Some (APool p)
        /\ (pa_bvault p = VaultA m a \/ pa_qvault p = VaultA m a) /\ x = ATok m Auth n)
  /\ (forall a x, b_acc b (MetaA a) = Some x -> exists m l p, x = AMeta m a l /\ b_acc b a = Some (APool p))
  /\ b_acc b Auth = None.
Proof.
  intros b H. pose proof (history_tidy _ H) as T. apply history_binv in H. split; [apply T|]. split; [|split; [|apply T]].
  - intros m a x E. destruct (ti_vault _ T _ _ _ E) as (p & P & V).
    destruct (bi_pool _ H _ _ P) as (c & nb & nq & w & C & A & BV & QV & NE & TB & TQ & _). exists p.
    destruct V as [V|V]; rewrite V in *.
    + exists nb. split; [exact P|]. split; [auto|]. injection BV as ->. congruence.
    + exists nq. split; [exact P|]. split; [auto|]. injection QV as ->. congruence.
  - intros a x E. destruct (ti_meta _ T _ _ E) as (m & l & ->). destruct (bi_meta _ H _ _ _ _ E) as (_ & (p & P) & _).
    exists m, l, p. auto.
Qed.

(** ** Opening a pool *)

(** The supply to mint is given, or what the curve, the migration and the vesting need fits in 64 bits
    with the 25 percent buffer. *)
Definition supply_fits (c : config) : Prop :=
  c_fixed_supply_flag c = 1
  \/ c_swap_base_amount c + c_swap_base_amount c / 4 + c_base_threshold c
     + lv_cliff_unlock_amount (c_vesting c) + lv_amount_per_period (c_vesting c) * lv_number_of_period (c_vesting c)
     <= U64_MAX.

Lemma base_loop_goes mig curve : forall low total, price_ok low -> price_ok mig -> low <= mig -> curve_wf low curve ->
  Forall (fun pl => u128ok (snd pl)) curve -> 0 <= total -> total + Z.of_nat (length curve) * 2 ^ 128 <= U256_MAX ->
  exists r, base_for_swap_loop low mig total curve = Ok r.
Proof.
  induction curve as [|[p l] rest IH]; intros low total P M LM W F T B; cbn [base_for_swap_loop]; [eauto|].
  destruct W as (W1 & W2 & W3). inversion F; subst. cbn [length fst snd] in *.
  assert (ST : forall up, low <= up -> price_ok up -> exists d, delta_base_256 low up l Up = Ok d /\ 0 <= d <= 2 ^ 128).
  { intros up LU PU. rewrite (delta_base_256_intro low up l Up P PU LU H1). eexists. split; [reflexivity|].
    unfold price_ok, u128ok, U128_MAX in *. cbn [divr].
    assert (0 < low * up) by nia. split.
    - apply cdiv_nonneg; nia.
    - transitivity l; [|change (2 ^ 128) with 340282366920938463463374607431768211456; lia].
      apply cdiv_le; [lia|]. replace (l * (low * up)) with (l * (low * up)) by ring. apply Z.mul_le_mono_nonneg_l; [lia|nia]. }
  set (k := 2 ^ 128) in *. assert (K0 : 0 < k) by reflexivity. clearbody k.
  assert (KL : 0 <= Z.of_nat (length rest) * k) by nia.
  assert (B' : total + k + Z.of_nat (length rest) * k <= U256_MAX).
  { lia. }
  destruct (mig <? p) eqn:E.
  - destruct (ST mig LM M) as (d & -> & D). cbn [bind]. rewrite sadd_intro by lia. eauto.
  - assert (PP : price_ok p) by (unfold price_ok in *; lia).
    destruct (ST p ltac:(lia) PP) as (d & -> & D). cbn [bind]. rewrite sadd_intro by lia. cbn [bind].
    apply IH; auto; lia.
Qed.

Lemma opens c key creator payer slot now admins ops : created c -> supply_fits c ->
  exists w, initialize_pool c key creator payer (c_token_type c) slot now admins ops = Ok w /\ p_creator (w_pool w) = creator.
Proof.
  intros C S. pose proof (created_cfg_ok c C) as K. pose proof (created_fees_ok c C) as KF.
  pose proof C as C'. apply created_inv in C'.
  destruct C' as (q & sup & spl & now0 & mig & sb & ba & fl & pre & post & qm & fc & lr & qa & bps & T & _ & B).
  destruct B as [V M MX SW S64 AM BP SP MODE COMP SUP BPS BMIN EQ].
  apply validate_inv in V. destruct V as (_ & V).
  assert (UA : 0 <= c_token_update_authority c <= 4) by (rewrite EQ; apply (va_tua _ _ _ V)).
  unfold initialize_pool. rewrite BPS. cbn [bind]. rewrite require_true by lia. cbn [bind].
  unfold validate_min_base_fee. destruct (fk_min _ KF) as (mn & -> & MN). cbn [bind]. rewrite require_true by lia. cbn [bind].
  assert (HS : exists s, get_initial_base_supply c = Ok s).
  { unfold get_initial_base_supply, is_fixed_supply. destruct (c_fixed_supply_flag c =? 1) eqn:E; [eauto|].
    destruct S as [S|S]; [lia|]. destruct (ok_curve _ K). rewrite (ok_used _ K).
    pose proof (ok_swap _ K) as SB. pose proof (ok_base _ K) as BT. destruct (ok_vest _ K) as (t & VT & TP & _).
    pose proof (lv_total_eq _ _ VT) as TE. unfold vesting_total in TE.
    assert (LEN : (length (curve_points c) <= 16)%nat).
    { pose proof (curve_validate_ok _ _ (va_curve _ _ _ V)) as (_ & NE & LEN & W & _).
      replace (curve_points c) with (q_curve q); [exact LEN|]. rewrite EQ. symmetry. apply curve_points_build; auto. }
    pose proof (ok_start_min _ K) as SM. unfold MIN_SQRT_PRICE in SM.
    destruct (base_loop_goes MAX_SQRT_PRICE (curve_points c) (c_start c) 0) as (mx & EM); auto; try lia.
    { unfold price_ok. pose proof (ok_mig_max _ K). lia. }
    { unfold price_ok, MAX_SQRT_PRICE. lia. }
    { assert (Z.of_nat (length (curve_points c)) <= 16) by lia.
      transitivity (16 * 2 ^ 128); [|unfold U256_MAX; vm_compute; discriminate]. 
      set (k := 2 ^ 128). assert (0 < k) by reflexivity. nia. }
    unfold get_swap_amount_with_buffer, SWAP_BUFFER_PERCENTAGE.
    unfold U64_MAX in *. rewrite smul_intro by (unfold U128_MAX; lia). cbn [bind]. rewrite sdiv_intro by lia. cbn [bind].
    assert (Q4 : c_swap_base_amount c * 25 / 100 = c_swap_base_amount c / 4).
    { replace (c_swap_base_amount c * 25) with (25 * c_swap_base_amount c) by ring.
      replace 100 with (25 * 4) by reflexivity. apply Z.div_mul_cancel_l; lia. }
    rewrite Q4. pose proof (Z.div_pos (c_swap_base_amount c) 4 ltac:(lia) ltac:(lia)) as QP.
    rewrite sadd_intro by (unfold U128_MAX; lia). cbn [bind].
    unfold get_base_token_for_swap. rewrite EM. cbn [bind].
    set (buf := c_swap_base_amount c / 4 + c_swap_base_amount c) in *.
    assert (HB : exists z, (if buf <? mx then if buf <=? 18446744073709551615 then Ok buf else Err EMathOverflow
                            else if mx <=? 18446744073709551615 then Ok mx else Err EMathOverflow) = Ok z /\ z <= buf).
    { destruct (buf <? mx) eqn:E1.
      - destruct (buf <=? 18446744073709551615) eqn:E2; [exists buf; split; [reflexivity|lia]|lia].
      - destruct (mx <=? 18446744073709551615) eqn:E2; [exists mx; split; [reflexivity|lia]|lia]. }
    destruct HB as (z & -> & ZB). cbn [bind]. unfold get_total_token_supply. unfold U64_MAX.
    rewrite sadd_intro by lia. cbn [bind]. rewrite VT. cbn [bind]. rewrite sadd_intro by lia. eauto. }
  destruct HS as (s & ->). cbn [bind]. rewrite require_true by lia. cbn [bind].
  assert (U1 : exists u, get_update_authority (c_token_update_authority c) creator (c_fee_claimer c) = Ok u).
  { unfold get_update_authority. destruct ((c_token_update_authority c =? 0) || (c_token_update_authority c =? 3)) eqn:E1; [eauto|].
    destruct ((c_token_update_authority c =? 2) || (c_token_update_authority c =? 4)) eqn:E2; [eauto|].
    destruct (c_token_update_authority c =? 1) eqn:E3; [eauto|lia]. }
  assert (U2 : exists u, get_mint_authority (c_token_update_authority c) creator (c_fee_claimer c) = Ok u).
  { unfold get_mint_authority. destruct (c_token_update_authority c =? 3) eqn:E1; [eauto|].
    destruct (c_token_update_authority c =? 4) eqn:E2; [eauto|].
    destruct ((0 <=? c_token_update_authority c) && (c_token_update_authority c <=? 2)) eqn:E3; [eauto|lia]. }
  destruct U1 as (u1 & ->), U2 as (u2 & ->). cbn [bind].
  assert (U3 : exists a, current_point c slot now = Ok a).
  { unfold current_point, activation_of. destruct (ok_act _ K) as [-> | ->]; simpl; eauto. }
  destruct U3 as (a & ->). cbn [bind]. eexists. split; [reflexivity|]. reflexivity.
Qed.

(** Anybody can open a pool of any accepted config, for any fresh mint, at any time. *)
Theorem C81_a_pool_can_be_opened : forall b k c bm creator payer slot now, history b ->
  b_acc b (Ext k) = Some (AConfig c) -> supply_fits c -> b_acc b (Ext bm) = None ->
  exists b' p, ix b (IInitPool k bm (c_quote_mint c) creator payer (c_token_type c) slot now) = Ok b'
    /\ b_acc b (PoolA k (Z.max bm (c_quote_mint c)) (Z.min bm (c_quote_mint c))) = None
    /\ b_acc b' (PoolA k (Z.max bm (c_quote_mint c)) (Z.min bm (c_quote_mint c))) = Some (APool p)
    /\ pa_config p = k /\ pa_bmint p = bm /\ p_creator (pa_pool p) = creator.
Proof.
  intros b k c bm creator payer slot now Hh C S F. pose proof (history_tidy _ Hh) as T.
  pose proof (history_one_mint _ Hh) as OM. pose proof (history_binv _ Hh) as I.
  pose proof (ti_mint _ T _ _ C) as QM. assert (NE : bm <> c_quote_mint c) by congruence.
  set (a := PoolA k (Z.max bm (c_quote_mint c)) (Z.min bm (c_quote_mint c))).
  assert (FA : b_acc b a = None).
  { destruct (b_acc b a) as [x|] eqn:E; [exfalso|reflexivity]. destruct (ti_pool _ T _ _ _ _ E) as (p & ->).
    destruct (bi_pool _ I _ _ E) as (c0 & nb & nq & w & C0 & A & _). unfold a in A. injection A as A1 A2 A3.
    rewrite <- A1, C in C0. injection C0 as <-. assert (B : pa_bmint p = bm) by lia.
    destruct OM as (OM & _). specialize (OM _ _ E). rewrite B in OM. congruence. }
  assert (FV : forall m, b_acc b (VaultA m a) = None).
  { intros m. destruct (b_acc b (VaultA m a)) as [x|] eqn:E; [exfalso|reflexivity].
    destruct (ti_vault _ T _ _ _ E) as (p & P & _). congruence. }
  destruct (opens c (code a) creator payer slot now (b_admins b) (b_ops b)) as (w & W & CR); [eapply bi_config; eauto|exact S|].
  simpl ix. unfold exec_init. fold a. cbv zeta.
  rewrite (load_config_go _ _ _ C). cbn [bind]. rewrite samek_go. cbn [bind].
  unfold load_mint. rewrite QM. cbn [bind]. rewrite (unused_go _ _ F). cbn [require bind]. rewrite W. cbn [bind].
  rewrite unused_go by (rewrite put_other by (unfold a; congruence); exact FA). cbn [require bind].
  rewrite unused_go by (rewrite !put_other by (unfold a; congruence); apply FV). cbn [require bind].
  rewrite unused_go by (rewrite !put_other by (unfold a; congruence); apply FV). cbn [require bind].
  eexists _, _. split; [reflexivity|]. split; [exact FA|]. split.
  - rewrite !put_other by (unfold a; congruence). apply put_same.
  - simpl. auto.
Qed.

(** The metadata that a DAMM v1 migration needs is there already, or anybody can create it. *)
Theorem C81_metadata_can_be_created : forall b a p c, history b -> b_acc b a = Some (APool p) ->
  b_acc b (Ext (pa_config p)) = Some (AConfig c) -> c_migration_option c = 0 ->
  (exists m l, b_acc b (MetaA a) = Some (AMeta m a l))
  \/ exists b' m, ix b (ICreateMetadata a (pa_config p) (MetaA a)) = Ok b' /\ b_acc b' (MetaA a) = Some (AMeta m a None).
Proof.
  intros b a p c Hh P C O. pose proof (history_tidy _ Hh) as T. pose proof (history_binv _ Hh) as I.
  destruct (b_acc b (MetaA a)) as [x|] eqn:E; [left; destruct (ti_meta _ T _ _ E) as (m & l & ->); eauto|right].
  destruct (bi_pool _ I _ _ P) as (c0 & nb & nq & w & C0 & _ & _ & _ & _ & TB & TQ & _). rewrite C in C0. injection C0 as <-.
  simpl ix. unfold exec_metadata. rewrite (load_pool_go _ _ _ P). cbn [bind]. rewrite samek_go, same_go. cbn [bind].
  rewrite (unused_go _ _ E). cbn [require bind]. unfold run_on.
  rewrite (load_pool_go _ _ _ P). cbn [bind]. rewrite (load_config_go _ _ _ C). cbn [bind].
  rewrite (load_tok_go _ _ _ _ _ TB). cbn [bind]. rewrite (load_tok_go _ _ _ _ _ TQ). cbn [bind snd].
  set (w0 := loaded b a p c nb nq None (lp_at b a)).
  assert (X : exec w0 OCreateMetadata = Ok (set_w_meta w0 (Some (mkMeta (c_fee_claimer c) 0 0 0 0 0 0 0 0)))).
  { change (exec w0 OCreateMetadata) with (create_v1_metadata w0). unfold create_v1_metadata.
    change (w_config w0) with c. change (w_meta w0) with (@None v1meta). rewrite O. reflexivity. }
  rewrite X. cbn [bind ok_or set_w_meta w_meta].
  eexists _, _. split; [reflexivity|]. apply put_same.
Qed.

(** A config with accepted terms can be stored at any fresh address. *)
Theorem C81_a_config_can_be_stored : forall b k q su spl now qm fc lr c,
  create_config q su spl now qm fc lr = Ok c -> b_acc b (Ext k) = None -> b_acc b (Ext qm) = Some AMint ->
  exists b', ix b (ICreateConfig k q su spl now qm fc lr) = Ok b' /\ b_acc b' (Ext k) = Some (AConfig c).
Proof.
  intros b k q su spl now qm fc lr c E F M. simpl ix. unfold exec_config, load_mint.
  rewrite (unused_go _ _ F), M. cbn [require bind]. rewrite E. cbn [bind]. eexists. split; [reflexivity|]. apply put_same.
Qed.

Lemma supply_fitsA : supply_fits cfgA.
Proof. right. vm_compute. discriminate. Qed.
Lemma supply_fitsB : supply_fits cfgB.
Proof. right. vm_compute. discriminate. Qed.

(** In the market the config at 7 exists and its supply fits, so a third pool can be opened for mint 14, but
    no second one for mint 12. With a second config, whose pools migrate to DAMM v1, a pool is opened and
    its metadata created. *)
Definition bazaar : bank := brun (genesis [99] 66)
  [ XMint 11; ICreateConfig 9 fx_paramsB true true 1700000000 11 22 33;
    IInitPool 9 14 11 44 55 (c_token_type cfgB) 1000 1700000000 ].
Definition pool14 : addr := PoolA 9 14 11.

Lemma bazaar_history : history bazaar.
Proof.
  eexists [99], 66, _. split; [|reflexivity].
  repeat (constructor; [first [exact Logic.I | split; [apply typedB|vm_compute; intuition discriminate]
                              | split; vm_compute; intuition discriminate]|]). constructor.
Qed.

Example C81_case : history market /\ supply_fits cfgA
  /\ match b_acc market (Ext 7) with Some (AConfig c) => (c_quote_mint c =? 11) && (c_token_type c =? 0) | _ => false end = true
  /\ unused market (Ext 14) = true /\ ok (ix market (IInitPool 7 14 11 44 55 0 1000 1700000000)) = true
  /\ ok (ix market (IInitPool 7 12 11 44 55 0 1000 1700000000)) = false
  /\ history bazaar /\ supply_fits cfgB /\ pool_at bazaar pool14 = true /\ c_migration_option cfgB = 0
  /\ ok (ix bazaar (ICreateMetadata pool14 9 (MetaA pool14))) = true.
Proof.
  split; [exact market_history|]. split; [exact supply_fitsA|]. do 4 (split; [vm_compute; reflexivity|]).
  split; [exact bazaar_history|]. split; [exact supply_fitsB|]. vm_compute. repeat split; reflexivity.
Qed.

Print Assumptions C81_nobody_squats.
Print Assumptions C81_a_pool_can_be_opened.
Print Assumptions C81_metadata_can_be_created.
Print Assumptions C81_a_config_can_be_stored.
