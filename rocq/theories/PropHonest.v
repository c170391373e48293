(** * C79: a caller who passes the right accounts is never turned away

    The account checks of the program are there to stop wrong accounts. Here: they stop nothing else.
    Whatever the single-pool model allows goes through when the caller passes the accounts of the pool,
    pays from an account of their own with enough tokens in it and names accounts of the right mint to
    be paid to. *)
From Coq Require Import ZArith List Bool Lia ZifyBool.
From Verif Require Import Base MathModel CurveModel FeeModel ConfigModel PoolModel TxModel SystemModel
  Lib Spec ConfigProofs FeeProofs SwapProofs InvProofs InvReach Effects Frame Bounds
  AcctModel AcctSim AcctInv AcctSpec AcctStep AcctFlow PropAcct Fixtures FixturesReach.
Import ListNotations.
Open Scope Z_scope.
#[local] Arguments Z.pow : simpl never.
#[local] Arguments Z.testbit : simpl never.

(** ** Specification *)

(** The accounts of pool [a] say exactly what the single-pool world [w] says. *)
Record mirrors (b : bank) (a : addr) (p : poolacct) (w : world) : Prop := {
  mi_shows : shows false b a w p;
  mi_key : w_key w = code a;
  mi_lp : (forall m l, b_acc b (MetaA a) <> Some (AMeta m a (Some l))) -> w_lp w = 0 }.

(** What the transfers [ts] take from the pool in token [k], and what they bring to it. *)
Definition leaving (k : token) (ts : list transfer) : Z :=
  fold_right (fun t s => if same_token k (t_token t) && is_pool (t_from t) then t_amount t + s else s) 0 ts.
Definition entering (ts : list transfer) : Z :=
  fold_right (fun t s => if is_pool (t_to t) then t_amount t + s else s) 0 ts.

(** A token account of mint [m] with room for [n] more, not held by the pool authority. *)
Definition can_receive (b : bank) (m n : Z) (y : addr) : Prop :=
  exists own x, b_acc b y = Some (ATok m own x) /\ own <> Auth /\ 0 <= x /\ x + n <= U64_MAX.
(** The same for the associated account of [who]. *)
Definition ata_can_receive (b : bank) (who m n : Z) (y : addr) : Prop :=
  y = AtaA (Ext who) m /\ exists x, b_acc b y = Some (ATok m (Ext who) x) /\ 0 <= x /\ x + n <= U64_MAX.

(** The instruction that asks the program for [o], with the right accounts; [ts] are the transfers that
    [o] makes. *)
Inductive honest (b : bank) (a : addr) (p : poolacct) (c : config) (ts : list transfer) : op -> instr -> Prop :=
  | h_sell s r mode a0 a1 slot now v inp out n :
      b_acc b inp = Some (ATok (pa_bmint p) (Ext s) n) -> entering ts <= n ->
      can_receive b (c_quote_mint c) (leaving TQuote ts) out ->
      (forall y, r = Some y -> can_receive b (c_quote_mint c) (leaving TQuote ts) y) ->
      honest b a p c ts
        (OSwap (mkSwapArgs s (option_map (fun _ => 0) r) BaseToQuote mode a0 a1 slot now v))
        (ISwap a (pa_config p) (pa_bvault p) (pa_qvault p) (pa_bmint p) (c_quote_mint c) inp out r s mode a0 a1
           slot now v)
  | h_buy s r mode a0 a1 slot now v inp out n :
      b_acc b inp = Some (ATok (c_quote_mint c) (Ext s) n) -> entering ts <= n ->
      can_receive b (pa_bmint p) (leaving TBase ts) out ->
      (forall y, r = Some y ->
         if c_collect_fee_mode c =? 0 then can_receive b (c_quote_mint c) (leaving TQuote ts) y
         else can_receive b (pa_bmint p) (leaving TBase ts) y) ->
      honest b a p c ts
        (OSwap (mkSwapArgs s (option_map (fun _ => 0) r) QuoteToBase mode a0 a1 slot now v))
        (ISwap a (pa_config p) (pa_bvault p) (pa_qvault p) (pa_bmint p) (c_quote_mint c) inp out r s mode a0 a1
           slot now v)
  | h_claim_partner s mb mq ta tb :
      can_receive b (pa_bmint p) (leaving TBase ts) ta -> can_receive b (c_quote_mint c) (leaving TQuote ts) tb ->
      honest b a p c ts (OClaimPartner s s mb mq)
        (IClaimPartner a (pa_config p) (pa_bvault p) (pa_qvault p) (pa_bmint p) (c_quote_mint c) ta tb s mb mq)
  | h_claim_creator s mb mq ta tb :
      can_receive b (pa_bmint p) (leaving TBase ts) ta -> can_receive b (c_quote_mint c) (leaving TQuote ts) tb ->
      honest b a p c ts (OClaimCreator s s mb mq)
        (IClaimCreator a (pa_bvault p) (pa_qvault p) (pa_bmint p) (c_quote_mint c) ta tb s mb mq)
  | h_claim_protocol s mb mq ta tb :
      (0 < leaving TBase ts -> ata_can_receive b (b_treasury b) (pa_bmint p) (leaving TBase ts) ta) ->
      (0 < leaving TQuote ts -> ata_can_receive b (b_treasury b) (c_quote_mint c) (leaving TQuote ts) tb) ->
      honest b a p c ts (OClaimProtocol s mb mq)
        (IClaimProtocol a (pa_config p) (pa_bvault p) (pa_qvault p) (pa_bmint p) (c_quote_mint c) ta tb s s mb mq)
  | h_zap_base s m al ok y :
      ata_can_receive b s (pa_bmint p) (leaving TBase ts) y ->
      honest b a p c ts (OZap s m true al ok) (IZap a (pa_config p) (pa_bvault p) (pa_bmint p) y s s m al ok)
  | h_zap_quote s m al ok y :
      ata_can_receive b s (c_quote_mint c) (leaving TQuote ts) y ->
      honest b a p c ts (OZap s m false al ok) (IZap a (pa_config p) (pa_qvault p) (c_quote_mint c) y s s m al ok)
  | h_partner_surplus s y :
      can_receive b (c_quote_mint c) (leaving TQuote ts) y ->
      honest b a p c ts (OPartnerSurplus s s)
        (IPartnerSurplus a (pa_config p) (pa_qvault p) (c_quote_mint c) y s)
  | h_creator_surplus s y :
      can_receive b (c_quote_mint c) (leaving TQuote ts) y ->
      honest b a p c ts (OCreatorSurplus s s)
        (ICreatorSurplus a (pa_config p) (pa_qvault p) (c_quote_mint c) y s)
  | h_migration_fee s f y :
      can_receive b (c_quote_mint c) (leaving TQuote ts) y ->
      honest b a p c ts (OMigrationFee s s f)
        (IMigrationFee a (pa_config p) (pa_qvault p) (c_quote_mint c) y s f)
  | h_leftover y :
      ata_can_receive b (c_leftover_receiver c) (pa_bmint p) (leaving TBase ts) y ->
      honest b a p c ts OLeftover
        (ILeftover a (pa_config p) (pa_bvault p) (pa_bmint p) y (c_leftover_receiver c))
  | h_partner_creation_fee s y :
      honest b a p c ts (OPartnerCreationFee s s) (IPartnerCreationFee a (pa_config p) y s)
  | h_protocol_creation_fee s :
      honest b a p c ts (OProtocolCreationFee s) (IProtocolCreationFee a (pa_config p) s s)
  | h_transfer_creator s n meta :
      (p_progress (pa_pool p) = CreatedPool -> c_migration_option c = 0 -> meta = Some (MetaA a)) ->
      honest b a p c ts (OTransferCreator s n) (ITransferCreator a (pa_config p) s n meta)
  | h_locker :
      honest b a p c ts OCreateLocker
        (ICreateLocker a (pa_config p) (pa_bvault p) (pa_bmint p) (p_creator (pa_pool p)))
  | h_metadata :
      b_acc b (MetaA a) = None ->
      honest b a p c ts OCreateMetadata (ICreateMetadata a (pa_config p) (MetaA a))
  | h_migrate_v1 lm ok lp :
      b_acc b (Ext lm) = None -> b_acc b (AtaA Auth lm) = None ->
      honest b a p c ts (OMigrateV1 ok lp)
        (IMigrateV1 a (pa_config p) (pa_bvault p) (pa_qvault p) (MetaA a) lm ok lp)
  | h_migrate_v2 x now :
      honest b a p c ts (OMigrateV2 x now)
        (IMigrateV2 a (pa_config p) (pa_bvault p) (pa_qvault p) (pa_bmint p) (c_quote_mint c) x now)
  | h_lock_lp m lm k :
      b_acc b (MetaA a) = Some (AMeta m a (Some lm)) ->
      honest b a p c ts (OLockLp k) (ILockLp a (MetaA a) lm (AtaA Auth lm) k)
  | h_claim_lp m lm k y :
      b_acc b (MetaA a) = Some (AMeta m a (Some lm)) -> ata_can_receive b k lm (leaving TLp ts) y ->
      honest b a p c ts (OClaimLp k) (IClaimLp a (MetaA a) lm (AtaA Auth lm) y k).

(** ** The checks pass *)
Lemma same_go a : same a a = Ok tt.
Proof. unfold same, addr_eqb. destruct (addr_dec a a); [reflexivity|congruence]. Qed.
Lemma samek_go k : samek k k = Ok tt.
Proof. unfold samek. rewrite Z.eqb_refl. reflexivity. Qed.
Lemma load_pool_go b a p : b_acc b a = Some (APool p) -> load_pool b a = Ok p.
Proof. unfold load_pool. intros ->. reflexivity. Qed.
Lemma load_config_go b k c : b_acc b (Ext k) = Some (AConfig c) -> load_config b k = Ok c.
Proof. unfold load_config. intros ->. reflexivity. Qed.
Lemma load_tok_go b y m o n : b_acc b y = Some (ATok m o n) -> load_tok b y = Ok (m, o, n).
Proof. unfold load_tok. intros ->. reflexivity. Qed.
Lemma load_meta_go b y m v l : b_acc b y = Some (AMeta m v l) -> load_meta b y = Ok (m, v, l).
Proof. unfold load_meta. intros ->. reflexivity. Qed.
Lemma has_mint_go b y m o n : b_acc b y = Some (ATok m o n) -> has_mint b y m = Ok tt.
Proof. intros H. unfold has_mint. rewrite (load_tok_go _ _ _ _ _ H). simpl. apply samek_go. Qed.
Lemma is_ata_go b o m n : b_acc b (AtaA o m) = Some (ATok m o n) -> is_ata b (AtaA o m) o m = Ok tt.
Proof.
  intros H. unfold is_ata. rewrite same_go. cbn [bind]. rewrite (load_tok_go _ _ _ _ _ H). cbn [bind].
  rewrite samek_go. apply same_go.
Qed.

(** ** Room for what arrives *)
Definition spare (b : bank) (m n : Z) (y : addr) : Prop :=
  exists own x, b_acc b y = Some (ATok m own x) /\ x + n <= U64_MAX /\ n <= U64_MAX.

Lemma spare_of b m n y : can_receive b m n y -> spare b m n y.
Proof. intros (own & x & A & _ & B & C). exists own, x. repeat split; auto; lia. Qed.
Lemma spare_ata b k m n y : ata_can_receive b k m n y -> spare b m n y.
Proof. intros (_ & x & A & B & C). exists (Ext k), x. repeat split; auto; lia. Qed.
Lemma spare_less b m n k y : spare b m n y -> k <= n -> spare b m k y.
Proof. intros (own & x & A & B & C) L. exists own, x. repeat split; auto; lia. Qed.

Lemma credit_go b y m n : spare b m n y -> 0 <= n ->
  exists b', credit b y m n = Ok b' /\ forall y' m' n', (m' = m -> spare b m (n + n') y') ->
    spare b m' n' y' -> spare b' m' n' y'.
Proof.
  intros (own & x & A & B & C) N. exists (put b y (ATok m own (x + n))). split.
  - unfold credit. rewrite (load_tok_go _ _ _ _ _ A). cbn [bind]. rewrite samek_go. cbn [bind].
    replace (u64b n) with true by (unfold u64b; lia). cbn [require bind].
    rewrite sadd_intro by lia. reflexivity.
  - intros y' m' n' D S. destruct (addr_dec y y') as [<-|NE].
    + destruct S as (own' & x' & A' & B' & C'). rewrite A in A'. injection A' as <- <- <-.
      destruct (D eq_refl) as (own' & x' & A' & B2 & C2). rewrite A in A'. injection A' as <- <-.
      exists own, (x + n). rewrite put_same. repeat split; lia.
    + destruct S as (own' & x' & A' & B' & C'). exists own', x'. rewrite put_other by assumption.
      repeat split; auto.
Qed.
Lemma debit_go b y m s n x : b_acc b y = Some (ATok m (Ext s) x) -> n <= x -> 0 <= n ->
  exists b', debit b y m s n = Ok b' /\ forall y' m' n', spare b m' n' y' -> spare b' m' n' y'.
Proof.
  intros A L N. exists (put b y (ATok m (Ext s) (x - n))). split.
  - unfold debit. rewrite (load_tok_go _ _ _ _ _ A). cbn [bind]. rewrite samek_go. cbn [bind].
    rewrite same_go. cbn [bind]. replace (n <=? x) with true by lia. reflexivity.
  - intros y' m' n' (own' & x' & A' & B' & C'). destruct (addr_dec y y') as [<-|NE].
    + rewrite A in A'. injection A' as <- <- <-. exists (Ext s), (x - n). rewrite put_same. repeat split; lia.
    + exists own', x'. rewrite put_other by assumption. repeat split; auto.
Qed.
Lemma sol_go b y n : 0 <= n <= U64_MAX -> exists b', credit_sol b y n = Ok b'.
Proof.
  intros N. unfold credit_sol. replace (u64b n) with true by (unfold u64b; lia). cbn [require bind].
  destruct (b_acc b y) as [[]|]; eauto.
Qed.

(** ** The handler runs *)
Lemma mirrors_agree b a p w c nb nq : binv b -> mirrors b a p w ->
  b_acc b (Ext (pa_config p)) = Some (AConfig c) ->
  b_acc b (pa_bvault p) = Some (ATok (pa_bmint p) Auth nb) ->
  b_acc b (pa_qvault p) = Some (ATok (c_quote_mint c) Auth nq) ->
  agree (loaded b a p c nb nq (meta_at b a) (lp_at b a)) w.
Proof.
  intros I [[] K L] C TB TQ. simpl in *. rewrite C in sh_config. injection sh_config as E.
  destruct sh_base as (nb' & TB' & XB), sh_quote as (nq' & TQ' & XQ).
  rewrite TB in TB'. injection TB' as ->. rewrite TQ in TQ'. injection TQ' as _ ->.
  constructor; simpl; try congruence.
  - destruct (w_meta w) as [m|] eqn:M.
    + destruct (proj1 (sh_meta m) eq_refl) as (l & X). unfold meta_at. rewrite X. reflexivity.
    + unfold meta_at. destruct (b_acc b (MetaA a)) as [[| | | |m v l]|] eqn:X; try reflexivity.
      destruct (bi_meta _ I _ _ _ _ X) as (Y & _). injection Y as <-.
      assert (None = Some m) by (apply sh_meta; eauto). discriminate.
  - unfold lp_at. destruct (b_acc b (MetaA a)) as [[| | | |m v [l|]]|] eqn:X;
      try (rewrite L; [lia|]; intros; congruence).
    destruct (bi_meta _ I _ _ _ _ X) as (Y & _ & Z). injection Y as <-. destruct (Z l eq_refl) as (n & T).
    rewrite T. specialize (sh_lp m l eq_refl). unfold balance in sh_lp. rewrite T in sh_lp. exact sh_lp.
Qed.

(** Everything known when the single-pool model accepts [o]. *)
Record ready (b : bank) (a : addr) (p : poolacct) (c : config) (w w' : world) (o : op) (ts : list transfer)
    (v : world) (b1 : bank) : Prop := {
  rd_pool : b_acc b a = Some (APool p);
  rd_config : b_acc b (Ext (pa_config p)) = Some (AConfig c);
  rd_wconfig : w_config w = c;
  rd_wpool : w_pool w = pa_pool p;
  rd_bvault : exists n, b_acc b (pa_bvault p) = Some (ATok (pa_bmint p) Auth n);
  rd_qvault : exists n, b_acc b (pa_qvault p) = Some (ATok (c_quote_mint c) Auth n);
  rd_ne : pa_bmint p <> c_quote_mint c;
  rd_meta : w_meta w = meta_at b a;
  rd_run : run_on b a (pa_config p) (pa_bvault p) (pa_qvault p) (meta_at b a) (lp_at b a) o = Ok (v, b1);
  rd_log : w_log v = ts;
  rd_vmeta : w_meta v = w_meta w';
  rd_keep : forall y m own n, b_acc b y = Some (ATok m own n) -> own <> Auth -> b_acc b1 y = Some (ATok m own n) }.

Lemma get_ready b a p c w w' o ts : binv b -> reachable w -> mirrors b a p w -> w_config w = c ->
  pool_op o = true -> exec w o = Ok w' -> w_log w' = w_log w ++ ts ->
  exists v b1, ready b a p c w w' o ts v b1.
Proof.
  intros I R M WC PO E L. pose proof (sh_pool _ _ _ _ _ (mi_shows _ _ _ _ M)) as P.
  destruct (bi_pool _ I _ _ P) as (c0 & nb & nq & w0 & C & A & BV & QV & NE & TB & TQ & _).
  assert (c0 = c). { pose proof (sh_config _ _ _ _ _ (mi_shows _ _ _ _ M)). congruence. } subst c0.
  pose proof (mirrors_agree _ _ _ _ _ _ _ I M C TB TQ) as AG.
  set (v0 := loaded b a p c nb nq (meta_at b a) (lp_at b a)) in *.
  destruct (rsim_from _ _ _ (rsim_exec _ _ _ o (agree_sim _ _ AG eq_refl) (reachable_inv _ R)
    ltac:(intros s k n ->; discriminate PO) ltac:(intros s n ->; discriminate PO)) _ E) as (v & EV & S).
  destruct (sim_eqs _ _ _ S) as (_ & _ & _ & _ & _ & _ & Q7 & _ & _ & _ & Q11).
  assert (RO : run_on b a (pa_config p) (pa_bvault p) (pa_qvault p) (meta_at b a) (lp_at b a) o
               = Ok (v, stored b a p (pa_bvault p) (pa_qvault p) v)).
  { unfold run_on. rewrite (load_pool_go _ _ _ P), (load_config_go _ _ _ C). cbn [bind].
    rewrite (load_tok_go _ _ _ _ _ TB), (load_tok_go _ _ _ _ _ TQ). cbn [bind snd]. fold v0. rewrite EV. reflexivity. }
  exists v, (stored b a p (pa_bvault p) (pa_qvault p) v). constructor; eauto.
  - rewrite (sh_state _ _ _ _ _ (mi_shows _ _ _ _ M)). reflexivity.
  - destruct AG. exact ag_meta.
  - rewrite Q11 in L. apply app_inv_head in L. exact L.
  - intros y m own n Y O.
    destruct (run_on_ran _ _ _ o _ _ _ _ _ _ _ I P PO eq_refl eq_refl eq_refl eq_refl eq_refl RO)
      as (c1 & v1 & wa & wa' & RN).
    destruct (ran_stored _ _ _ _ _ _ _ _ _ _ RN) as (_ & _ & _ & _ & _ & _ & K).
    rewrite K; [exact Y| | |]; intros ->; congruence.
Qed.

(** ** Every instruction *)
Ltac pass := repeat (first
  [ rewrite same_go | rewrite samek_go
  | erewrite load_pool_go by eassumption | erewrite load_config_go by eassumption
  | erewrite load_tok_go by eassumption | erewrite has_mint_go by eassumption
  | erewrite load_meta_go by eassumption | rewrite Z.eqb_refl ]; cbn [bind require]).

Lemma keep_spare b b1 m n y :
  (forall y m own n, b_acc b y = Some (ATok m own n) -> own <> Auth -> b_acc b1 y = Some (ATok m own n)) ->
  can_receive b m n y -> spare b1 m n y.
Proof. intros K (own & x & A & O & B & C). exists own, x. repeat split; [apply K; auto|lia|lia]. Qed.
Lemma keep_ata b b1 k m n y :
  (forall y m own n, b_acc b y = Some (ATok m own n) -> own <> Auth -> b_acc b1 y = Some (ATok m own n)) ->
  ata_can_receive b k m n y -> spare b1 m n y.
Proof. intros K (_ & x & A & B & C). exists (Ext k), x. repeat split; [apply K; [exact A|discriminate]|lia|lia]. Qed.

(** One or two payments. *)
Lemma deliver_one b mo k to n y ds : spare b (mo k) n y -> 0 <= n -> k <> TSol ->
  (forall z, leaves (mkTransfer k PPool to z) = true) ->
  exists b', deliver b mo [mkTransfer k PPool to n] ((k, y) :: ds) = Ok b'.
Proof.
  intros S N K L. destruct (credit_go _ _ _ _ S N) as (b' & C & _). exists b'.
  cbn [deliver]. rewrite L. cbn [t_token t_amount take_dst].
  destruct k; try congruence; rewrite C; reflexivity.
Qed.
Lemma deliver_two b mo to1 to2 n1 n2 y1 y2 :
  spare b (mo TBase) n1 y1 -> spare b (mo TQuote) n2 y2 -> 0 <= n1 -> 0 <= n2 -> mo TBase <> mo TQuote ->
  leaves (mkTransfer TBase PPool to1 n1) = true -> leaves (mkTransfer TQuote PPool to2 n2) = true ->
  exists b', deliver b mo [mkTransfer TBase PPool to1 n1; mkTransfer TQuote PPool to2 n2]
               [(TBase, y1); (TQuote, y2)] = Ok b'.
Proof.
  intros S1 S2 N1 N2 NE L1 L2. destruct (credit_go _ _ _ _ S1 N1) as (b' & C & K).
  assert (S2' : spare b' (mo TQuote) n2 y2) by (apply K; [congruence|exact S2]).
  destruct (credit_go _ _ _ _ S2' N2) as (b'' & C' & _). exists b''.
  cbn [deliver]. rewrite L1, L2. cbn [t_token t_amount take_dst]. rewrite C. cbn [bind]. rewrite C'. reflexivity.
Qed.

(** What the transfers of [o] are: the new part of the log. *)
Lemma eff_ts w w' q l ts : eff w w' q l -> w_log w' = w_log w ++ ts -> ts = l.
Proof. intros E L. rewrite (ef_log _ _ _ _ E) in L. apply app_inv_head in L. auto. Qed.

Lemma exec_body w o w' : exec w o = Ok w' -> args_ok o = true.
Proof. apply exec_args. Qed.

Lemma claims_go b a p c w w' ts s mb mq ta tb o :
  o = OClaimPartner s s mb mq \/ o = OClaimCreator s s mb mq ->
  Inv w -> exec w o = Ok w' -> w_log w' = w_log w ++ ts ->
  can_receive b (pa_bmint p) (leaving TBase ts) ta -> can_receive b (c_quote_mint c) (leaving TQuote ts) tb ->
  forall v b1, ready b a p c w w' o ts v b1 ->
  exists b', deliver b1 (mints (pa_bmint p) (c_quote_mint c) 0) (w_log v) [(TBase, ta); (TQuote, tb)] = Ok b'.
Proof.
  intros O I E L RA RB v b1 RD.
  assert (TS : exists x y to, 0 <= x /\ 0 <= y /\ ts = [mkTransfer TBase PPool (PKey to) x; mkTransfer TQuote PPool (PKey to) y]).
  { pose proof (iv_nonneg _ I) as (N1 & N2 & N3 & N4 & _). pose proof (exec_args _ _ _ E) as A.
    destruct O as [->| ->]; unfold exec in E; rewrite A in E; cbn [require bind] in E;
    simpl in A; apply andb_true_iff in A; destruct A as (A1 & A2); apply u64b_ok in A1, A2.
    - apply partner_eff in E. destruct E as (_ & E & _). apply (eff_ts _ _ _ _ _ E) in L.
      do 3 eexists. split; [|split; [|exact L]]; lia.
    - apply creator_eff in E. destruct E as (_ & E & _). apply (eff_ts _ _ _ _ _ E) in L.
      do 3 eexists. split; [|split; [|exact L]]; lia. }
  destruct TS as (x & y & to & X & Y & ->). destruct RD. rewrite rd_log0.
  unfold leaving in RA, RB. simpl in RA, RB.
  apply deliver_two; auto; simpl.
  - apply (keep_spare _ _ _ _ _ rd_keep0) in RA. eapply spare_less; [exact RA|lia].
  - apply (keep_spare _ _ _ _ _ rd_keep0) in RB. eapply spare_less; [exact RB|lia].
Qed.

Lemma protocol_go b a p c w w' ts s mb mq ta tb : binv b ->
  Inv w -> exec w (OClaimProtocol s mb mq) = Ok w' -> w_log w' = w_log w ++ ts ->
  (0 < leaving TBase ts -> ata_can_receive b (b_treasury b) (pa_bmint p) (leaving TBase ts) ta) ->
  (0 < leaving TQuote ts -> ata_can_receive b (b_treasury b) (c_quote_mint c) (leaving TQuote ts) tb) ->
  forall v b1, ready b a p c w w' (OClaimProtocol s mb mq) ts v b1 ->
  (do _ <- (if 0 <? sent TBase (w_log v) then is_ata b ta (Ext (b_treasury b)) (pa_bmint p) else Ok tt) ;;
   do _ <- (if 0 <? sent TQuote (w_log v) then is_ata b tb (Ext (b_treasury b)) (c_quote_mint c) else Ok tt) ;;
   Ok tt) = Ok tt
  /\ exists b', deliver b1 (mints (pa_bmint p) (c_quote_mint c) 0) (w_log v) [(TBase, ta); (TQuote, tb)] = Ok b'.
Proof.
  intros IB I E L RA RB v b1 RD. pose proof (exec_args _ _ _ E) as A.
  unfold exec in E; rewrite A in E; cbn [require bind] in E.
  simpl in A; apply andb_true_iff in A; destruct A as (A1 & A2); apply u64b_ok in A1, A2.
  apply (protocol_eff _ _ _ _ _ I (proj1 A1) (proj1 A2)) in E. destruct E as (_ & p' & E & _).
  apply (eff_ts _ _ _ _ _ E) in L. clear E. destruct RD. rewrite rd_log0.
  set (x := Z.min mb _) in L. set (y := Z.min mq _ + _) in L. clearbody x y. subst ts.
  assert (ATA : forall k m n z, ata_can_receive b k m n z -> is_ata b z (Ext k) m = Ok tt).
  { intros k m n z (-> & u & T & _). eapply is_ata_go; exact T. }
  destruct (0 <? x) eqn:X, (0 <? y) eqn:Y; unfold leaving in RA, RB; simpl in RA, RB; simpl app;
    unfold sent; simpl; rewrite ?Z.add_0_r in *; rewrite ?X, ?Y.
  - specialize (RA ltac:(lia)). specialize (RB ltac:(lia)).
    split; [rewrite (ATA _ _ _ _ RA), (ATA _ _ _ _ RB); reflexivity|].
    apply (deliver_two b1 (mints (pa_bmint p) (c_quote_mint c) 0) PTreasury PTreasury); simpl; auto; try lia;
      eapply keep_ata; eauto.
  - specialize (RA ltac:(lia)). split; [rewrite (ATA _ _ _ _ RA); reflexivity|].
    apply (deliver_one b1 (mints (pa_bmint p) (c_quote_mint c) 0) TBase PTreasury x ta [(TQuote, tb)]);
      auto; try lia; try discriminate. eapply keep_ata; eauto.
  - specialize (RB ltac:(lia)). split; [rewrite (ATA _ _ _ _ RB); reflexivity|].
    assert (S : spare b1 (c_quote_mint c) y tb) by (eapply keep_ata; eauto).
    destruct (credit_go _ _ _ _ S) as (b' & C & _); [lia|]. rewrite C. simpl. eauto.
  - split; [reflexivity|]. eauto.
Qed.

Lemma zap_go b a p c w w' ts s m base al ok y : Inv w ->
  exec w (OZap s m base al ok) = Ok w' -> w_log w' = w_log w ++ ts ->
  ata_can_receive b s (if base then pa_bmint p else c_quote_mint c) (leaving (if base then TBase else TQuote) ts) y ->
  forall v b1, ready b a p c w w' (OZap s m base al ok) ts v b1 -> forall k, k = (if base then pa_bmint p else c_quote_mint c) ->
  exists b', deliver b1 (mints k k 0) (w_log v) [(TBase, y); (TQuote, y)] = Ok b'.
Proof.
  intros I E L RA v b1 RD k ->. pose proof (exec_args _ _ _ E) as A.
  unfold exec in E; rewrite A in E; cbn [require bind] in E. simpl in A. apply u64b_ok in A.
  apply (zap_eff _ _ _ _ _ _ _ I (proj1 A)) in E. destruct E as (_ & _ & _ & p' & E & _ & Z0 & _).
  apply (eff_ts _ _ _ _ _ E) in L. clear E. destruct RD. rewrite rd_log0.
  set (x := Z.min m (p_protocol_base _ + _)) in L, Z0. set (z := Z.min m _ + _) in L, Z0. clearbody x z.
  subst ts. destruct base; unfold leaving in RA; simpl in RA; rewrite ?Z.add_0_r in RA.
  - apply deliver_one; simpl; auto; try lia; try discriminate. eapply keep_ata; eauto.
  - assert (S : spare b1 (c_quote_mint c) z y) by (eapply keep_ata; eauto).
    destruct (credit_go _ _ _ _ S) as (b' & C & _); [lia|]. simpl. rewrite C. simpl. eauto.
Qed.

Lemma quote_go b a p c w w' ts o y v b1 : Inv w -> exec w o = Ok w' -> w_log w' = w_log w ++ ts ->
  (exists s, o = OPartnerSurplus s s) \/ (exists s, o = OCreatorSurplus s s) \/ (exists s f, o = OMigrationFee s s f) ->
  can_receive b (c_quote_mint c) (leaving TQuote ts) y ->
  ready b a p c w w' o ts v b1 ->
  exists b', deliver b1 (mints 0 (c_quote_mint c) 0) (w_log v) [(TQuote, y)] = Ok b'.
Proof.
  intros I E L O RA RD. pose proof (created_cfg_ok _ (iv_created _ I)) as K.
  assert (TS : exists x to, 0 <= x /\ ts = [mkTransfer TQuote PPool (PKey to) x]).
  { pose proof (exec_args _ _ _ E) as A. pose proof (mig_fee_parts _ K) as (_ & M2 & M3 & _).
    destruct O as [(s & ->)|[(s & ->)|(s & f & ->)]]; unfold exec in E; rewrite A in E; cbn [require bind] in E.
    - apply partner_surplus_eff in E; auto. destruct E as (_ & T & _ & E & _).
      apply (eff_ts _ _ _ _ _ E) in L. do 2 eexists. split; [|exact L]. apply surplus_parts; auto.
    - apply creator_surplus_eff in E; auto. destruct E as (_ & T & _ & E & _).
      apply (eff_ts _ _ _ _ _ E) in L. do 2 eexists. split; [|exact L]. apply surplus_parts; auto.
    - apply migration_fee_eff in E; auto.
      destruct E as (_ & _ & [(_ & _ & _ & E)|(_ & _ & _ & E)]); apply (eff_ts _ _ _ _ _ E) in L;
      do 2 eexists; (split; [|exact L]); assumption. }
  destruct TS as (x & to & X & ->). destruct RD. rewrite rd_log0.
  unfold leaving in RA. simpl in RA. rewrite Z.add_0_r in RA.
  apply deliver_one; auto; try discriminate. simpl. eapply keep_spare; eauto.
Qed.

Lemma leftover_go b a p c w w' ts k y v b1 : Inv w -> exec w OLeftover = Ok w' -> w_log w' = w_log w ++ ts ->
  ata_can_receive b k (pa_bmint p) (leaving TBase ts) y -> ready b a p c w w' OLeftover ts v b1 ->
  exists b', deliver b1 (mints (pa_bmint p) 0 0) (w_log v) [(TBase, y)] = Ok b'.
Proof.
  intros I E L RA RD. pose proof (exec_args _ _ _ E) as A. unfold exec in E; rewrite A in E; cbn [require bind] in E.
  apply leftover_eff in E. destruct E as (P3 & _ & _ & E & _). apply (eff_ts _ _ _ _ _ E) in L.
  pose proof (iv_base _ I) as BO. unfold base_owed in BO. rewrite P3 in BO. simpl in BO.
  set (x := _ - p_mig_base_fee _) in L. assert (X : 0 <= x) by (subst x; lia). clearbody x. subst ts.
  destruct RD. rewrite rd_log0. unfold leaving in RA. simpl in RA. rewrite Z.add_0_r in RA.
  apply deliver_one; auto; try discriminate. simpl. eapply keep_ata; eauto.
Qed.

Lemma creation_parts c : cfg_ok c -> 0 <= creation_fee_protocol c /\ c_pool_creation_fee c <= U64_MAX
  /\ creation_fee_protocol c <= c_pool_creation_fee c.
Proof.
  intros K. pose proof (ok_pcf _ K). unfold creation_fee_protocol.
  split; [apply Z.div_pos; lia|]. split; [lia|]. apply Z.div_le_upper_bound; lia.
Qed.

Lemma sol_out b mo n to y : leaves (mkTransfer TSol PPool to n) = true -> 0 <= n <= U64_MAX ->
  exists b', deliver b mo [mkTransfer TSol PPool to n] [(TSol, y)] = Ok b'.
Proof.
  intros L N. destruct (sol_go b y n N) as (b' & C). exists b'. cbn [deliver]. rewrite L.
  cbn [t_token t_amount take_dst]. rewrite C. reflexivity.
Qed.

Lemma partner_creation_go b a p c w w' ts s y v b1 : Inv w -> exec w (OPartnerCreationFee s s) = Ok w' ->
  w_log w' = w_log w ++ ts -> ready b a p c w w' (OPartnerCreationFee s s) ts v b1 ->
  exists b', deliver b1 (mints 0 0 0) (w_log v) [(TSol, y)] = Ok b'.
Proof.
  intros I E L RD. pose proof (created_cfg_ok _ (iv_created _ I)) as K.
  pose proof (exec_args _ _ _ E) as A. unfold exec in E; rewrite A in E; cbn [require bind] in E.
  apply partner_cf_eff in E; auto. destruct E as (_ & A0 & _ & E & _). apply (eff_ts _ _ _ _ _ E) in L. subst ts.
  destruct RD. rewrite rd_log0. apply sol_out; [reflexivity|]. pose proof (creation_parts _ K). lia.
Qed.
Lemma protocol_creation_go b a p c w w' ts s y v b1 : Inv w -> exec w (OProtocolCreationFee s) = Ok w' ->
  w_log w' = w_log w ++ ts -> ready b a p c w w' (OProtocolCreationFee s) ts v b1 ->
  exists b', deliver b1 (mints 0 0 0) (w_log v) [(TSol, y)] = Ok b'.
Proof.
  intros I E L RD. pose proof (created_cfg_ok _ (iv_created _ I)) as K.
  pose proof (exec_args _ _ _ E) as A. unfold exec in E; rewrite A in E; cbn [require bind] in E.
  apply protocol_cf_eff in E; auto. destruct E as (_ & E & _). apply (eff_ts _ _ _ _ _ E) in L. subst ts.
  destruct RD. rewrite rd_log0. pose proof (creation_parts _ K).
  destruct (0 <? _) eqn:Z0; [|simpl; eauto]. apply sol_out; [reflexivity|]. destruct (negb _); lia.
Qed.

Lemma fee_on_base c d h fm : get_fee_mode (c_collect_fee_mode c) d h = Ok fm ->
  fm_on_base fm = match d with BaseToQuote => false | QuoteToBase => negb (c_collect_fee_mode c =? 0) end.
Proof.
  unfold get_fee_mode, collect_of. intros H. destruct (c_collect_fee_mode c =? 0) eqn:Z0.
  - simpl in H. destruct d; apply Ok_inj in H; subst fm; reflexivity.
  - destruct (c_collect_fee_mode c =? 1); [|discriminate H]. simpl in H.
    destruct d; apply Ok_inj in H; subst fm; reflexivity.
Qed.

Lemma swap_amounts w a w' fm r num fee gross pf cf cur : swap_effect w w' a fm r num fee gross pf cf cur ->
  0 <= sr_output r /\ 0 <= sr_referral r /\ 0 <= sr_included r.
Proof.
  intros SE. pose proof (se_facts _ _ _ _ _ _ _ _ _ _ _ SE) as SF.
  pose proof (sf_parts _ _ _ _ _ _ _ _ SF) as PA.
  apply parts_sum in PA; [|apply (sf_fee_nonneg _ _ _ _ _ _ _ _ SF)].
  destruct PA as (_ & _ & _ & R0 & _).
  pose proof (sf_out_nonneg _ _ _ _ _ _ _ _ SF). pose proof (sf_in _ _ _ _ _ _ _ _ SF).
  pose proof (sf_excl _ _ _ _ _ _ _ _ SF). pose proof (sf_fee_nonneg _ _ _ _ _ _ _ _ SF).
  destruct (fm_on_input fm); lia.
Qed.

Lemma deliver_ref b mo s n0 ko n1 kr n2 ki (out : addr) r :
  ko <> TSol -> ko <> TLp -> kr = TBase \/ kr = TQuote -> 0 <= n1 -> 0 <= n2 ->
  (if same_token ko kr then mo ko = mo kr else mo ko <> mo kr) ->
  spare b (mo ko) (if same_token ko kr then n1 + n2 else n1) out ->
  spare b (mo kr) (if same_token ko kr then n1 + n2 else n2) r ->
  exists b', deliver b mo [mkTransfer ki (PKey s) PPool n0; mkTransfer ko PPool (PKey s) n1;
                           mkTransfer kr PPool (PKey 0) n2] ((ko, out) :: [(TBase, r); (TQuote, r)]) = Ok b'.
Proof.
  intros K1 K2 KR N1 N2 ME S1 S2.
  assert (S1' : spare b (mo ko) n1 out) by (eapply spare_less; [exact S1|destruct (same_token _ _); lia]).
  assert (S2' : spare b (mo kr) n2 r) by (eapply spare_less; [exact S2|destruct (same_token _ _); lia]).
  destruct (credit_go _ _ _ _ S1' N1) as (b1 & C1 & P1).
  assert (S3 : spare b1 (mo kr) n2 r).
  { apply P1; [|exact S2']. intros X. destruct (same_token ko kr); [|congruence]. rewrite <- X. exact S2. }
  destruct (credit_go _ _ _ _ S3 N2) as (b2 & C2 & _). exists b2.
  cbn [deliver leaves t_from t_to t_token t_amount].
  destruct ko; try congruence; destruct KR as [->| ->]; cbn [take_dst]; rewrite C1; cbn [bind]; rewrite C2; reflexivity.
Qed.
Lemma deliver_noref b mo s n0 ko n1 ki (out : addr) :
  ko <> TSol -> 0 <= n1 -> spare b (mo ko) n1 out ->
  exists b', deliver b mo [mkTransfer ki (PKey s) PPool n0; mkTransfer ko PPool (PKey s) n1] [(ko, out)] = Ok b'.
Proof.
  intros K1 N1 S1. destruct (credit_go _ _ _ _ S1 N1) as (b1 & C1 & _). exists b1.
  cbn [deliver leaves t_from t_to t_token t_amount]. destruct ko; try congruence; cbn [take_dst]; rewrite C1; reflexivity.
Qed.

Lemma swap_go b a p c w w' ts s r d mode a0 a1 slot now vw inp out n v b1 :
  let o := OSwap (mkSwapArgs s (option_map (fun _ => 0) r) d mode a0 a1 slot now vw) in
  let mi := match d with BaseToQuote => pa_bmint p | QuoteToBase => c_quote_mint c end in
  Inv w -> exec w o = Ok w' -> w_log w' = w_log w ++ ts ->
  b_acc b inp = Some (ATok mi (Ext s) n) -> entering ts <= n ->
  can_receive b (match d with BaseToQuote => c_quote_mint c | QuoteToBase => pa_bmint p end)
    (leaving (match d with BaseToQuote => TQuote | QuoteToBase => TBase end) ts) out ->
  (forall y, r = Some y ->
     match d with
     | BaseToQuote => can_receive b (c_quote_mint c) (leaving TQuote ts) y
     | QuoteToBase => if c_collect_fee_mode c =? 0 then can_receive b (c_quote_mint c) (leaving TQuote ts) y
                      else can_receive b (pa_bmint p) (leaving TBase ts) y
     end) ->
  ready b a p c w w' o ts v b1 ->
  exists b2 b', debit b1 inp mi s (taken (w_log v)) = Ok b2
   /\ deliver b2 (mints (pa_bmint p) (c_quote_mint c) 0) (w_log v)
    ((match d with BaseToQuote => (TQuote, out) | QuoteToBase => (TBase, out) end)
      :: match r with Some r => [(TBase, r); (TQuote, r)] | None => [] end) = Ok b'.
Proof.
  intros o mi I E L A EN RO RR RD.
  destruct (swap_eff _ _ _ I E) as (fm & sr & num & fee & gross & pf & cf & cur & p1 & SE & _ & _ & EF & _).
  apply (eff_ts _ _ _ _ _ EF) in L. pose proof (se_fm _ _ _ _ _ _ _ _ _ _ _ SE) as FM.
  apply fee_on_base in FM. destruct (swap_amounts _ _ _ _ _ _ _ _ _ _ _ SE) as (N1 & N2 & N0).
  destruct RD. rewrite rd_wconfig0 in FM. clear SE EF E. rewrite rd_log0.
  assert (TK : taken ts = sr_included sr /\ entering ts = sr_included sr).
  { subst ts. unfold swap_log, fee_token. destruct d, r; simpl; lia. }
  destruct TK as (TK & TE). rewrite TK. rewrite TE in EN.
  assert (NA : Ext s <> Auth) by discriminate. pose proof (rd_keep0 _ _ _ _ A NA) as A2. clear A. rename A2 into A.
  destruct (debit_go _ _ _ _ _ _ A EN N0) as (b2 & D & K). exists b2.
  assert (SO : spare b2 (match d with BaseToQuote => c_quote_mint c | QuoteToBase => pa_bmint p end)
    (leaving (match d with BaseToQuote => TQuote | QuoteToBase => TBase end) ts) out)
    by (apply K; eapply keep_spare; eauto).
  assert (SR : forall y, r = Some y ->
     match d with
     | BaseToQuote => spare b2 (c_quote_mint c) (leaving TQuote ts) y
     | QuoteToBase => if c_collect_fee_mode c =? 0 then spare b2 (c_quote_mint c) (leaving TQuote ts) y
                      else spare b2 (pa_bmint p) (leaving TBase ts) y
     end).
  { intros y Y. specialize (RR y Y). destruct d; [|destruct (_ =? _)]; apply K; eapply keep_spare; eauto. }
  clear RO RR. unfold swap_log, fee_token in L. rewrite FM in L.
  assert (exists b', deliver b2 (mints (pa_bmint p) (c_quote_mint c) 0) ts
    ((match d with BaseToQuote => (TQuote, out) | QuoteToBase => (TBase, out) end)
      :: match r with Some r => [(TBase, r); (TQuote, r)] | None => [] end) = Ok b') as (b' & DV).
  { destruct r as [y|]; [specialize (SR y eq_refl)|clear SR]; destruct d; simpl in L; subst ts;
      unfold leaving in *; simpl in SO.
    - simpl in SR. apply (deliver_ref b2 (mints (pa_bmint p) (c_quote_mint c) 0)); simpl; auto; try discriminate.
      + eapply spare_less; [exact SO|lia].
      + eapply spare_less; [exact SR|lia].
    - destruct (c_collect_fee_mode c =? 0); simpl in SR, SO; simpl negb; cbn [same_token].
      + apply (deliver_ref b2 (mints (pa_bmint p) (c_quote_mint c) 0)); simpl; auto; try discriminate.
        * eapply spare_less; [exact SO|lia].
        * eapply spare_less; [exact SR|lia].
      + apply (deliver_ref b2 (mints (pa_bmint p) (c_quote_mint c) 0)); simpl; auto; try discriminate.
        * eapply spare_less; [exact SO|lia].
        * eapply spare_less; [exact SR|lia].
    - apply (deliver_noref b2 (mints (pa_bmint p) (c_quote_mint c) 0)); simpl; auto; try discriminate.
      eapply spare_less; [exact SO|lia].
    - apply (deliver_noref b2 (mints (pa_bmint p) (c_quote_mint c) 0)); simpl; auto; try discriminate.
      eapply spare_less; [exact SO|lia]. }
  exists b'. split; [exact D|exact DV].
Qed.

Lemma unused_go b y : b_acc b y = None -> unused b y = true.
Proof. unfold unused. intros ->. reflexivity. Qed.

Lemma ata_go b k m n y : ata_can_receive b k m n y -> is_ata b y (Ext k) m = Ok tt.
Proof. intros (-> & x & T & _). eapply is_ata_go. exact T. Qed.
Lemma lp_side b a m lm : binv b -> b_acc b (MetaA a) = Some (AMeta m a (Some lm)) ->
  exists n, b_acc b (AtaA Auth lm) = Some (ATok lm Auth n) /\ meta_at b a = Some m /\ lp_at b a = n.
Proof.
  intros I M. destruct (bi_meta _ I _ _ _ _ M) as (_ & _ & X). destruct (X lm eq_refl) as (n & T).
  exists n. split; [exact T|]. unfold meta_at, lp_at. rewrite M, T. auto.
Qed.
Lemma lp_accounts_go b a p m lm n : b_acc b a = Some (APool p) ->
  b_acc b (MetaA a) = Some (AMeta m a (Some lm)) -> b_acc b (AtaA Auth lm) = Some (ATok lm Auth n) ->
  lp_accounts b a (MetaA a) lm (AtaA Auth lm) = Ok m.
Proof.
  intros P M T. unfold lp_accounts. pass. cbn [ok_or bind]. pass. rewrite (is_ata_go _ _ _ _ T). reflexivity.
Qed.

(** ** The theorems *)

(** Every pool is mirrored by a world of the single-pool model. *)
Theorem C79_every_pool_is_mirrored : forall b a p, history b -> b_acc b a = Some (APool p) ->
  exists w, reachable w /\ mirrors b a p w.
Proof.
  intros b a p H P. apply history_binv in H.
  destruct (bi_pool _ H _ _ P) as (c & nb & nq & w & C & A & BV & QV & NE & TB & TQ & R & S).
  exists w. split; [exact R|]. constructor.
  - eapply agree_shows; eauto.
  - destruct S. exact ag_key.
  - intros N. pose proof (iv_lp _ (reachable_inv _ R)) as LP. pose proof (iv_meta _ (reachable_inv _ R)) as IM.
    assert (0 <= lp_owed w).
    { unfold lp_owed, unless. destruct (w_meta w); [|lia].
      repeat match goal with |- context [if ?x then _ else _] => destruct x end; lia. }
    destruct S. simpl in ag_lp. unfold lp_at in ag_lp.
    destruct (b_acc b (MetaA a)) as [[| | | |m vp [l|]]|] eqn:X; try lia.
    destruct (bi_meta _ H _ _ _ _ X) as (Y & _). injection Y as <-. exfalso. eapply N. reflexivity.
Qed.

Lemma accepted b a p w w' c ts o i : binv b -> reachable w -> mirrors b a p w ->
  w_config w = c -> exec w o = Ok w' -> w_log w' = w_log w ++ ts -> honest b a p c ts o i ->
  exists b', ix b i = Ok b'.
Proof.
  intros I R M WC E L HON.
  pose proof (reachable_inv _ R) as IW.
  assert (PO : pool_op o = true) by (destruct HON; reflexivity).
  destruct (get_ready _ _ _ _ _ _ _ _ I R M WC PO E L) as (v & b1 & RD). pose proof RD as RD0.
  destruct RD0. destruct rd_bvault0 as (nb & TB), rd_qvault0 as (nq & TQ).
  destruct HON as
    [s r mode a0 a1 slot now vw inp out n A EN RO RR|s r mode a0 a1 slot now vw inp out n A EN RO RR
    |s mb mq ta tb RA RB|s mb mq ta tb RA RB|s mb mq ta tb RA RB|s m al ok y RA|s m al ok y RA
    |s y RA|s y RA|s f y RA|y RA|s y|s|s n meta MT| |MN|lm ok lp U1 U2|x now|m lm k MA|m lm k y MA RA]; simpl ix.
  - unfold exec_swap. pass.
    destruct RO as (oo & xo & AO & RO). rewrite (load_tok_go _ _ _ _ _ AO). cbn [bind].
    assert (RF : match r with Some r0 => do _ <- load_tok b r0 ;; Ok tt | None => Ok tt end = Ok tt).
    { destruct r as [y|]; [|reflexivity]. destruct (RR y eq_refl) as (oy & xy & AY & _).
      rewrite (load_tok_go _ _ _ _ _ AY). reflexivity. }
    rewrite RF. cbn [bind]. cbv zeta.
    replace (match r with Some _ => Some 0 | None => None end) with (option_map (fun _ : addr => 0) r) by (destruct r; reflexivity).
    rewrite rd_run0. cbn [bind].
    destruct (swap_go _ _ _ _ _ _ _ _ _ BaseToQuote _ _ _ _ _ _ _ _ _ _ _ IW E L A EN
      (ex_intro _ oo (ex_intro _ xo (conj AO RO))) RR RD) as (b2 & b' & D & DV).
    simpl in D, DV. rewrite D. cbn [bind]. exists b'. exact DV.
  - unfold exec_swap. pass.
    destruct RO as (oo & xo & AO & RO). rewrite (load_tok_go _ _ _ _ _ AO). cbn [bind].
    assert (RF : match r with Some r0 => do _ <- load_tok b r0 ;; Ok tt | None => Ok tt end = Ok tt).
    { destruct r as [y|]; [|reflexivity]. specialize (RR y eq_refl).
      destruct (_ =? 0); destruct RR as (oy & xy & AY & _); rewrite (load_tok_go _ _ _ _ _ AY); reflexivity. }
    rewrite RF. cbn [bind]. cbv zeta.
    replace (c_quote_mint c =? pa_bmint p) with false by lia.
    replace (match r with Some _ => Some 0 | None => None end) with (option_map (fun _ : addr => 0) r) by (destruct r; reflexivity).
    rewrite rd_run0. cbn [bind].
    destruct (swap_go _ _ _ _ _ _ _ _ _ QuoteToBase _ _ _ _ _ _ _ _ _ _ _ IW E L A EN
      (ex_intro _ oo (ex_intro _ xo (conj AO RO))) RR RD) as (b2 & b' & D & DV).
    simpl in D, DV. rewrite D. cbn [bind]. exists b'. exact DV.
  - unfold exec_claim_partner. pass.
    destruct RA as (oa & xa & AA & RA), RB as (ob & xb & AB & RB). pass. rewrite rd_run0. cbn [bind].
    eapply claims_go; [left; reflexivity|exact IW|exact E|exact L| | |exact RD]; [exists oa, xa|exists ob, xb]; auto.
  - unfold exec_claim_creator. pass.
    destruct RA as (oa & xa & AA & RA), RB as (ob & xb & AB & RB). pass. rewrite rd_run0. cbn [bind].
    eapply claims_go; [right; reflexivity|exact IW|exact E|exact L| | |exact RD]; [exists oa, xa|exists ob, xb]; auto.
  - unfold exec_claim_protocol. pass. rewrite rd_run0. cbn [bind].
    destruct (protocol_go _ _ _ _ _ _ _ _ _ _ _ _ I IW E L RA RB _ _ RD) as (CH & b' & DV).
    apply bind_ok in CH. destruct CH as ([] & C1 & CH). apply bind_ok in CH. destruct CH as ([] & C2 & _).
    rewrite C1. cbn [bind]. rewrite C2. cbn [bind]. eauto.
  - unfold exec_zap. pass. cbn [orb require bind]. cbv zeta. pass. rewrite rd_run0. cbn [bind].
    rewrite (ata_go _ _ _ _ _ RA). pass.
    eapply (zap_go _ _ _ _ _ _ _ _ _ true); [exact IW|exact E|exact L|exact RA|exact RD|reflexivity].
  - unfold exec_zap. pass. rewrite orb_true_r. cbn [require bind]. cbv zeta.
    replace (c_quote_mint c =? pa_bmint p) with false by lia. pass. rewrite rd_run0. cbn [bind].
    rewrite (ata_go _ _ _ _ _ RA). pass.
    eapply (zap_go _ _ _ _ _ _ _ _ _ false); [exact IW|exact E|exact L|exact RA|exact RD|reflexivity].
  - unfold exec_quote_payout. pass. pose proof RA as (oa & xa & AA & _). pass. rewrite rd_run0. cbn [bind].
    eapply quote_go; [exact IW|exact E|exact L|eauto|exact RA|exact RD].
  - unfold exec_quote_payout. pass. pose proof RA as (oa & xa & AA & _). pass. rewrite rd_run0. cbn [bind].
    eapply quote_go; [exact IW|exact E|exact L|eauto|exact RA|exact RD].
  - unfold exec_quote_payout. pass. pose proof RA as (oa & xa & AA & _). pass. rewrite rd_run0. cbn [bind].
    eapply quote_go; [exact IW|exact E|exact L|right; right; eauto|exact RA|exact RD].
  - unfold exec_leftover. pass. rewrite (ata_go _ _ _ _ _ RA). pass. rewrite rd_run0. cbn [bind].
    eapply leftover_go; [exact IW|exact E|exact L|exact RA|exact RD].
  - unfold exec_partner_creation. pass. rewrite rd_run0. cbn [bind].
    eapply partner_creation_go; [exact IW|exact E|exact L|exact RD].
  - unfold exec_protocol_creation. pass. rewrite rd_run0. cbn [bind].
    eapply protocol_creation_go; [exact IW|exact E|exact L|exact RD].
  - unfold exec_transfer_creator. pass.
    destruct ((p_progress (pa_pool p) =? CreatedPool) && (c_migration_option c =? 0)) eqn:NEED.
    + apply andb_true_iff in NEED. destruct NEED as (N1 & N2). rewrite (MT ltac:(lia) ltac:(lia)). cbn [ok_or bind].
      unfold exec in E. apply bind_ok in E. destruct E as (u & _ & E). apply transfer_creator_eff in E.
      destruct E as (_ & _ & _ & X & _). rewrite rd_wpool0, rd_wconfig0 in X.
      destruct X as (m & X & _); [unfold CreatedPool in N1; lia|lia|].
      destruct (proj1 (sh_meta _ _ _ _ _ (mi_shows _ _ _ _ M) m) X) as (l & MA).
      pass. replace (Some m) with (meta_at b a) by congruence. rewrite rd_run0. simpl. eauto.
    + cbn [bind]. rewrite rd_run0. simpl. eauto.
  - unfold exec_locker. pass. rewrite rd_run0. simpl. eauto.
  - unfold exec_metadata. pass. rewrite (unused_go _ _ MN). cbn [require bind].
    assert (MM : meta_at b a = None) by (unfold meta_at; rewrite MN; reflexivity).
    rewrite MM in rd_run0. rewrite rd_run0. cbn [bind].
    unfold exec in E. apply bind_ok in E. destruct E as (u & _ & E). apply metadata_eff in E.
    destruct E as (_ & _ & _ & X & _). rewrite rd_vmeta0, X. simpl. eauto.
  - unfold exec_migrate_v1. pass.
    unfold exec in E. apply bind_ok in E. destruct E as (u & _ & E). apply migrate_v1_eff in E.
    destruct E as (m & m' & fb & fq & eb & eq & bb & mb & _ & _ & _ & WM & _ & _ & _ & _ & _ & _ & WM' & _).
    destruct (proj1 (sh_meta _ _ _ _ _ (mi_shows _ _ _ _ M) m) WM) as (l & MA). pass.
    rewrite (unused_go _ _ U1), (unused_go _ _ U2). cbn [require bind].
    replace (Some m) with (meta_at b a) by congruence. rewrite rd_run0. cbn [bind]. rewrite rd_vmeta0, WM'. simpl. eauto.
  - unfold exec_migrate_v2. pass. rewrite rd_run0. simpl. eauto.
  - destruct (lp_side _ _ _ _ I MA) as (n & T & M1 & M2). unfold exec_lock_lp.
    rewrite (lp_accounts_go _ _ _ _ _ _ rd_pool0 MA T). cbn [bind]. pass. cbn [snd]. rewrite M1, M2 in rd_run0.
    rewrite rd_run0. cbn [bind fst]. unfold lp_store.
    unfold exec in E. apply bind_ok in E. destruct E as (u & _ & E). apply lock_lp_eff in E.
    destruct E as (m0 & m' & z & _ & _ & WM' & _). rewrite rd_vmeta0, WM'. simpl. eauto.
  - destruct (lp_side _ _ _ _ I MA) as (n & T & M1 & M2). unfold exec_claim_lp.
    rewrite (lp_accounts_go _ _ _ _ _ _ rd_pool0 MA T). cbn [bind].
    pose proof RA as (Y & x & TY & X0 & X1). subst y. rewrite (is_ata_go _ _ _ _ TY). cbn [bind].
    pass. cbn [snd]. rewrite M1, M2 in rd_run0.
    rewrite rd_run0. cbn [bind fst]. unfold lp_store.
    unfold exec in E. apply bind_ok in E. destruct E as (u & _ & E). apply claim_lp_eff in E.
    destruct E as (m0 & m' & z & _ & WM & WM' & _ & _ & AM & _ & _ & EF & _).
    rewrite rd_vmeta0, WM'. cbn [ok_or bind]. apply (eff_ts _ _ _ _ _ EF) in L. rewrite rd_log0, L in *.
    unfold leaving in X1. simpl in X1.
    pose proof (iv_meta _ IW) as IM. rewrite WM in IM. destruct IM as (_ & _ & L1 & L2 & _).
    assert (Z0 : 0 <= z) by (destruct AM as [AM|[AM|AM]]; decompose [and] AM; lia).
    apply (deliver_one _ (mints 0 0 lm) TLp (PKey k) z (AtaA (Ext k) lm) []); auto; try discriminate.
    exists (Ext k), x. rewrite !put_other by congruence. repeat split; auto; lia.
Qed.

Lemma honest_runs b a p c ts o i : binv b -> b_acc b a = Some (APool p) ->
  b_acc b (Ext (pa_config p)) = Some (AConfig c) -> honest b a p c ts o i -> runs b i = Some (a, o) /\ typed i.
Proof.
  intros I P C H. destruct (bi_pool _ I _ _ P) as (c0 & nb & nq & w & C0 & A & BV & QV & NE & _).
  assert (c0 = c) by congruence. subst c0.
  destruct H; (split; [|exact Logic.I]); simpl; try reflexivity.
  - rewrite H, Z.eqb_refl. destruct r; reflexivity.
  - rewrite H. replace (c_quote_mint c =? pa_bmint p) with false by lia. destruct r; reflexivity.
  - rewrite P, Z.eqb_refl. reflexivity.
  - rewrite P. replace (c_quote_mint c =? pa_bmint p) with false by lia. reflexivity.
Qed.

(** What the single-pool model accepts is accepted with the right accounts, and has the effect that the
    single-pool model says. *)
Theorem C79_never_turned_away : forall b a p w w' c ts o i, history b -> reachable w -> mirrors b a p w ->
  w_config w = c -> exec w o = Ok w' -> w_log w' = w_log w ++ ts -> honest b a p c ts o i ->
  exists b' p', ix b i = Ok b' /\ shows true b' a w' p'.
Proof.
  intros b a p w w' c ts o i Hh R M WC E L HON. apply history_binv in Hh.
  destruct (accepted _ _ _ _ _ _ _ _ _ Hh R M WC E L HON) as (b' & H). exists b'.
  pose proof (sh_pool _ _ _ _ _ (mi_shows _ _ _ _ M)) as P.
  pose proof (sh_config _ _ _ _ _ (mi_shows _ _ _ _ M)) as C. rewrite WC in C.
  destruct (honest_runs _ _ _ _ _ _ _ Hh P C HON) as (RU & T).
  destruct (ix_outcome _ _ _ Hh T H) as (O & I').
  destruct O as [a0 o0 R0 (q & c0 & v & u & wa & wa' & b1 & b2 & RN & W & I2 & G)|N|N]; try congruence.
  rewrite RU in R0. injection R0 as <- <-.
  assert (q = p) by (destruct RN; congruence). subst q.
  assert (c0 = c) by (destruct RN; congruence). subst c0.
  assert (SM : sim (w_log w) u w').
  { pose proof (runs_pool_op _ _ _ _ RU) as PO.
    pose proof (mirrors_agree _ _ _ _ _ _ _ Hh M C (rn_tb _ _ _ _ _ _ _ _ _ _ RN) (rn_tq _ _ _ _ _ _ _ _ _ _ RN)) as AG.
    rewrite <- (rn_view _ _ _ _ _ _ _ _ _ _ RN) in AG.
    assert (LV : w_log v = []) by (rewrite (rn_view _ _ _ _ _ _ _ _ _ _ RN); reflexivity).
    destruct (rsim_to _ _ _ (rsim_exec _ _ _ o (agree_sim _ _ AG LV) (reachable_inv _ R)
      ltac:(intros s k n ->; discriminate PO) ltac:(intros s n ->; discriminate PO)) _ (rn_exec _ _ _ _ _ _ _ _ _ _ RN))
      as (w2 & E2 & S2). congruence. }
  destruct (done_shows _ _ _ _ _ _ _ _ _ _ _ _ _ (runs_pool_op _ _ _ _ RU) RN W I2 G I' _ _ SM) as (p' & SH).
  eauto.
Qed.

(** ** Concrete cases *)

(** The single-pool world of pool 12 of the market in PropAcct: one purchase was made. *)
Definition born12 : world := Eval vm_compute in
  match initialize_pool cfgA (code pool12) 44 55 0 1000 1700000000 [99] [] with Ok w => w | Err _ => wA end.
Definition world12 : world := run born12
  [OCreateOperator 99 88 1;
   OSwap (mkSwapArgs 500 None QuoteToBase 1 2000000000 0 1060 1700000030 plain_view)].

Lemma world12_reachable : reachable world12.
Proof.
  exists born12. eexists. split; [|reflexivity].
  exists cfgA, (code pool12), 44, 55, 0, 1000, 1700000000, [99], [].
  split. { exists fx_paramsA, true, true, 1700000000, 11, 22, 33. split; [apply typedA|].
    split; [unfold u64ok; vm_compute; split; congruence|apply cfgA_created]. }
  split; [unfold u64ok; vm_compute; split; congruence|].
  split; [unfold u64ok; vm_compute; split; congruence|]. vm_compute. reflexivity.
Qed.

Definition acct12 : poolacct := Eval vm_compute in
  match b_acc market pool12 with Some (APool p) => p | _ => mkPoolAcct (w_pool wA) 0 0 Auth Auth 0 end.

Lemma mirrors12 : mirrors market pool12 acct12 world12.
Proof.
  constructor.
  - constructor.
    + vm_compute. reflexivity.
    + vm_compute. reflexivity.
    + vm_compute. reflexivity.
    + vm_compute. reflexivity.
    + eexists. split; vm_compute; reflexivity.
    + eexists. split; vm_compute; reflexivity.
    + assert (M : b_acc market (MetaA pool12) = None) by (vm_compute; reflexivity).
      assert (W : w_meta world12 = None) by (vm_compute; reflexivity).
      intros m. rewrite M, W. split; [intros X; discriminate X|intros (l & X); discriminate X].
    + assert (M : b_acc market (MetaA pool12) = None) by (vm_compute; reflexivity).
      intros m l X. rewrite M in X. discriminate X.
    + vm_compute. reflexivity.
    + vm_compute. reflexivity.
  - vm_compute. reflexivity.
  - intros _. vm_compute. reflexivity.
Qed.

Definition news (w : world) (o : op) : list transfer :=
  match exec w o with Ok w' => skipn (length (w_log w)) (w_log w') | Err _ => [] end.

(** Another purchase with a referrer, and the operator's claim for the treasury. *)
Example C79_case :
  let o1 := OSwap (mkSwapArgs 500 (Some 0) QuoteToBase 1 3000000000 0 1070 1700000035 plain_view) in
  let o2 := OClaimProtocol 88 U64_MAX U64_MAX in
  history market /\ reachable world12 /\ mirrors market pool12 acct12 world12
  /\ w_config world12 = cfgA
  /\ ok (exec world12 o1) = true /\ ok (exec world12 o2) = true
  /\ 0 < leaving TQuote (news world12 o2)
  /\ honest market pool12 acct12 cfgA (news world12 o1) o1
       (ISwap pool12 7 (VaultA 12 pool12) (VaultA 11 pool12) 12 11 (Ext 501) (Ext 502) (Some (Ext 504)) 500 1
          3000000000 0 1070 1700000035 plain_view)
  /\ honest market pool12 acct12 cfgA (news world12 o2) o2
       (IClaimProtocol pool12 7 (VaultA 12 pool12) (VaultA 11 pool12) 12 11 (Ext 999) (AtaA (Ext 66) 11) 88 88
          U64_MAX U64_MAX).
Proof.
  intros o1 o2. split; [exact market_history|]. split; [exact world12_reachable|]. split; [exact mirrors12|].
  split; [vm_compute; reflexivity|]. split; [vm_compute; reflexivity|]. split; [vm_compute; reflexivity|].
  split; [vm_compute; reflexivity|].
  assert (B1 : b_acc market (Ext 501) = Some (ATok 11 (Ext 500) 298000000000)) by (vm_compute; reflexivity).
  assert (B2 : exists n, b_acc market (Ext 502) = Some (ATok 12 (Ext 500) n) /\ 0 <= n
            /\ n + leaving TBase (news world12 o1) <= U64_MAX).
  { eexists. split; [vm_compute; reflexivity|]. split; vm_compute; discriminate. }
  assert (B3 : b_acc market (Ext 504) = Some (ATok 11 (Ext 500) 5)) by (vm_compute; reflexivity).
  assert (B4 : b_acc market (AtaA (Ext 66) 11) = Some (ATok 11 (Ext 66) 0)) by (vm_compute; reflexivity).
  split.
  - destruct B2 as (n & B2 & B2p & B2q).
    apply (h_buy market pool12 acct12 cfgA (news world12 o1) 500 (Some (Ext 504)) 1 3000000000 0 1070 1700000035
             plain_view (Ext 501) (Ext 502) _ B1).
    + vm_compute. discriminate.
    + exists (Ext 500), n. split; [exact B2|]. split; [discriminate|]. split; assumption.
    + intros y Y. injection Y as <-. change (c_collect_fee_mode cfgA =? 0) with true. cbn iota.
      exists (Ext 500), 5. split; [exact B3|]. split; [discriminate|]. split; [lia|]. vm_compute. discriminate.
  - apply (h_claim_protocol market pool12 acct12 cfgA (news world12 o2) 88 U64_MAX U64_MAX (Ext 999) (AtaA (Ext 66) 11)).
    + intros X. exfalso. revert X. vm_compute. discriminate.
    + intros _. split; [vm_compute; reflexivity|]. exists 0. split; [exact B4|]. split; [lia|]. vm_compute. discriminate.
Qed.

Print Assumptions C79_every_pool_is_mirrored.
Print Assumptions C79_never_turned_away.
