(** * Many pools, and callers who choose every account they pass (C60-C63) *)
From Coq Require Import ZArith List Bool Lia ZifyBool.
From Verif Require Import Base MathModel CurveModel FeeModel ConfigModel PoolModel TxModel SystemModel
  Fixtures Lib Spec InvProofs InvReach PropSwap FixturesReach Frame SpecHist
  AcctModel AcctSim AcctInv AcctStep AcctSpec AcctFlow.
Import ListNotations.
Open Scope Z_scope.

Lemma history_binv b : history b -> binv b.
Proof. intros (ad & t & is & T & ->). apply brun_binv; [apply binv_genesis|exact T]. Qed.
Lemma history_next b i b' : history b -> typed i -> ix b i = Ok b' -> history b'.
Proof.
  intros (ad & t & is & T & E) TI H. exists ad, t, (is ++ [i]). split; [apply Forall_app; auto|].
  unfold brun in *. rewrite fold_left_app. simpl. rewrite <- E. unfold bstep. rewrite H. reflexivity.
Qed.

(** ** C60: every pool behaves like the single-pool model *)

Lemma meta_shows b a (w : world) : binv b -> meta_at b a = w_meta w ->
  forall m, w_meta w = Some m <-> exists l, b_acc b (MetaA a) = Some (AMeta m a l).
Proof.
  intros I E m. rewrite <- E. unfold meta_at. split.
  - destruct (b_acc b (MetaA a)) as [[| | | |m' v l]|] eqn:M; try discriminate. intros X. injection X as ->.
    destruct (bi_meta _ I _ _ _ _ M) as (X & _). injection X as ->. eauto.
  - intros (l & ->). reflexivity.
Qed.
Lemma lp_shows b a n : binv b -> n <= lp_at b a ->
  forall m l, b_acc b (MetaA a) = Some (AMeta m a (Some l)) -> n <= balance b (AtaA Auth l).
Proof.
  intros I L m l M. destruct (bi_meta _ I _ _ _ _ M) as (_ & _ & X). destruct (X l eq_refl) as (k & T).
  unfold lp_at in L. rewrite M, T in L. unfold balance. rewrite T. exact L.
Qed.

Lemma agree_shows b a p c nb nq w : binv b -> b_acc b a = Some (APool p) ->
  b_acc b (Ext (pa_config p)) = Some (AConfig c) ->
  b_acc b (pa_bvault p) = Some (ATok (pa_bmint p) Auth nb) ->
  b_acc b (pa_qvault p) = Some (ATok (c_quote_mint c) Auth nq) ->
  agree (loaded b a p c nb nq (meta_at b a) (lp_at b a)) w -> shows false b a w p.
Proof.
  intros I P C TB TQ []. simpl in *. constructor; simpl; auto; try congruence.
  - eexists. split; [exact TB|]. congruence.
  - eexists. split; [rewrite ag_config; exact TQ|]. congruence.
  - apply meta_shows; auto.
  - apply lp_shows; auto.
Qed.

Theorem C60_pools_follow_the_model : forall b a p, history b -> b_acc b a = Some (APool p) ->
  exists w, reachable w /\ shows false b a w p.
Proof.
  intros b a p H P. apply history_binv in H.
  destruct (bi_pool _ H _ _ P) as (c & nb & nq & w & C & A & BV & QV & NE & TB & TQ & R & S).
  exists w. split; [exact R|]. eapply agree_shows; eauto.
Qed.

(** The tokens a pool owes are in its own two accounts. *)
Theorem C60_pools_are_solvent : forall b a p, history b -> b_acc b a = Some (APool p) ->
  exists w, reachable w /\ shows false b a w p
    /\ quote_owed w <= balance b (pa_qvault p) /\ base_owed w <= balance b (pa_bvault p)
    /\ lamports_owed w <= pa_lamports p.
Proof.
  intros b a p H P. destruct (C60_pools_follow_the_model b a p H P) as (w & R & S). exists w.
  split; [exact R|]. split; [exact S|]. apply reachable_inv in R. destruct S. simpl in *.
  destruct sh_base as (nb & TB & <-), sh_quote as (nq & TQ & <-). unfold balance. rewrite TB, TQ, <- sh_lamports.
  split; [apply R|]. split; apply R.
Qed.

(** Each base mint belongs to one pool. *)
Definition one_mint (b : bank) : Prop :=
  (forall a p, b_acc b a = Some (APool p) -> b_acc b (Ext (pa_bmint p)) = Some AMint)
  /\ forall a p a' p', b_acc b a = Some (APool p) -> b_acc b a' = Some (APool p') ->
       pa_bmint p = pa_bmint p' -> a = a'.

Lemma mint_stays b i b' k : outcome b i b' -> b_acc b (Ext k) = Some AMint -> b_acc b' (Ext k) = Some AMint.
Proof.
  intros [a o _ (p & c & v & w & wa & wa' & b1 & b2 & RN & W & _ & G)|_ G|_ K] M.
  - pose proof (gr_acc _ _ _ G (Ext k)) as A.
    assert (M2 : b_acc b2 (Ext k) = Some AMint).
    { destruct (wr_else _ _ _ _ _ _ W (Ext k)) as [->|X]; [exact M|]. destruct RN.
      destruct X as [X|[X|[X|[X|[X|X]]]]]; try congruence.
      - destruct X as (? & ? & X & _). discriminate X.
      - destruct X. congruence. }
    rewrite M2 in A. exact A.
  - pose proof (gr_acc _ _ _ G (Ext k)) as A. rewrite M in A. exact A.
  - apply K. exact M.
Qed.

Lemma init_pools b c bm qm cr pa ty slot now b' y q : exec_init b c bm qm cr pa ty slot now = Ok b' ->
  b_acc b' y = Some (APool q) -> b_acc b y = Some (APool q) \/ (b_acc b (Ext (pa_bmint q)) = None
    /\ b_acc b' (Ext (pa_bmint q)) = Some AMint /\ y = PoolA c (Z.max bm qm) (Z.min bm qm)).
Proof.
  intros H P. unfold exec_init in H. do 3 bo H. cbv zeta in H. do 2 bo H. do 3 bo H.
  apply require_ok in E2. apply unused_ok in E2. apply Ok_inj in H.
  assert (M : b_acc b' (Ext bm) = Some AMint).
  { subst b'. rewrite put_other, put_other, put_other, put_same by congruence. reflexivity. }
  revert P M. subst b'. intros P M.
  match type of P with b_acc (put ?b0 ?a ?x) y = _ => destruct (addr_dec a y) as [<-|N1]; [rewrite put_same in P; discriminate P|] end.
  rewrite put_other in P by assumption.
  match type of P with b_acc (put ?b0 ?a ?x) y = _ => destruct (addr_dec a y) as [<-|N2]; [rewrite put_same in P; discriminate P|] end.
  rewrite put_other in P by assumption.
  match type of P with b_acc (put ?b0 ?a ?x) y = _ => destruct (addr_dec a y) as [<-|N3] end.
  - rewrite put_same in P. injection P as <-. right. split; [exact E2|]. split; [exact M|reflexivity].
  - rewrite put_other in P by assumption.
    match type of P with b_acc (put ?b0 ?a ?x) y = _ => destruct (addr_dec a y) as [<-|N4]; [rewrite put_same in P; discriminate P|] end.
    rewrite put_other in P by assumption. left. exact P.
Qed.

Lemma old_pool b i b' a p : binv b -> typed i -> ix b i = Ok b' -> b_acc b' a = Some (APool p) ->
  (exists p0, b_acc b a = Some (APool p0) /\ pa_bmint p0 = pa_bmint p /\ pa_bvault p0 = pa_bvault p
     /\ pa_qvault p0 = pa_qvault p /\ pa_config p0 = pa_config p)
  \/ (exists cfg bm qm cr pa ty slot now, i = IInitPool cfg bm qm cr pa ty slot now
      /\ a = PoolA cfg (Z.max bm qm) (Z.min bm qm)
      /\ b_acc b (Ext (pa_bmint p)) = None /\ b_acc b' (Ext (pa_bmint p)) = Some AMint).
Proof.
  intros I T H P. destruct (ix_outcome _ _ _ I T H) as (O & _).
  assert (GR : forall s, grows s b b' -> exists p0, b_acc b a = Some (APool p0) /\ pa_bmint p0 = pa_bmint p
     /\ pa_bvault p0 = pa_bvault p /\ pa_qvault p0 = pa_qvault p /\ pa_config p0 = pa_config p).
  { intros s G. destruct (grows_pool_back _ _ _ _ _ G P) as (p0 & P0 & EP & _). exists p0. split; [exact P0|]. rewrite EP. auto. }
  destruct O as [a0 o _ (q & c & v & w & wa & wa' & b1 & b2 & RN & W & I2 & G)|_ G|N K].
  - left. destruct (grows_pool_back _ _ _ _ _ G P) as (p0 & P0 & EP & _).
    assert (EM : pa_bmint p = pa_bmint p0 /\ pa_bvault p = pa_bvault p0 /\ pa_qvault p = pa_qvault p0
                 /\ pa_config p = pa_config p0) by (rewrite EP; auto).
    destruct EM as (-> & -> & -> & ->).
    destruct (wr_else _ _ _ _ _ _ W a) as [X|X]; [exists p0; split; [congruence|auto]|].
    pose proof (wr_pool _ _ _ _ _ _ W) as WP. pose proof (wr_tb _ _ _ _ _ _ W) as WB. pose proof (wr_tq _ _ _ _ _ _ W) as WQ.
    destruct X as [X|[X|[X|[X|[X|X]]]]].
    + subst a0. rewrite P0 in WP. injection WP as ->. exists q. split; [apply RN|auto].
    + subst a. congruence.
    + subst a. congruence.
    + subst a. exfalso. destruct (bi_pool _ I2 _ _ P0) as (? & ? & ? & ? & _ & X & _). discriminate X.
    + destruct X as (? & ? & _ & _ & X). congruence.
    + destruct X. congruence.
  - left. eapply GR; eauto.
  - destruct i; simpl in N; try discriminate N; try (destruct (b_acc b pool) as [[]|]; discriminate N); simpl in H.
    1: left; eapply GR; eapply config_grows with (s := None); [apply T|apply T|exact H].
    1: destruct (init_pools _ _ _ _ _ _ _ _ _ _ _ _ H P) as [X|(X1 & X2 & X3)];
       [left; exists p; auto|right; do 8 eexists; split; [reflexivity|]; auto].
    1: { (* zap on something that is not a pool *)
      exfalso. unfold exec_zap in H. do 2 bo H. apply load_pool_ok in E0. rewrite E0 in N. discriminate N. }
    1: { left. unfold exec_create_operator in H. do 3 bo H. apply Ok_inj in H. subst b'. exists p. auto. }
    1: { left. unfold exec_close_operator in H. do 2 bo H. apply Ok_inj in H. subst b'. exists p. auto. }
    1: left; eapply GR; eapply credit_grows with (s := None); exact H.
    1: left; eapply GR; eapply credit_sol_grows with (s := None); exact H.
    1: left; eapply GR; eapply owner_grows; exact H.
    1: { bo H. apply require_ok in E. apply unused_ok in E. apply Ok_inj in H. subst b'.
         left. eapply GR. apply grows_put with (s := None). rewrite E. exact Logic.I. }
    1: left; eapply GR; eapply account_grows with (s := None); exact H.
Qed.

Lemma one_mint_step b i b' : binv b -> typed i -> ix b i = Ok b' -> one_mint b -> one_mint b'.
Proof.
  intros I T H (M & U). destruct (ix_outcome _ _ _ I T H) as (O & _). split.
  - intros a p P. destruct (old_pool _ _ _ _ _ I T H P) as [(p0 & P0 & E & _)|(? & ? & ? & ? & ? & ? & ? & ? & _ & _ & _ & X)].
    + rewrite <- E. eapply mint_stays; eauto.
    + exact X.
  - intros a p a' p' P P' E.
    destruct (old_pool _ _ _ _ _ I T H P) as [(p0 & P0 & E0 & _)|(? & ? & ? & ? & ? & ? & ? & ? & J & A & X & _)];
    destruct (old_pool _ _ _ _ _ I T H P') as [(p1 & P1 & E1 & _)|(? & ? & ? & ? & ? & ? & ? & ? & J' & A' & X' & _)].
    + eapply U; eauto. congruence.
    + exfalso. apply M in P0. congruence.
    + exfalso. apply M in P1. congruence.
    + congruence.
Qed.
Lemma history_one_mint b : history b -> one_mint b.
Proof.
  intros (ad & t & is & T & ->).
  assert (G : forall is b, binv b -> one_mint b -> Forall typed is -> one_mint (brun b is)).
  { clear. induction is as [|i is IH]; intros b I M T; [exact M|]. inversion T; subst.
    change (brun b (i :: is)) with (brun (bstep b i) is). unfold bstep.
    destruct (ix b i) eqn:E; [|apply IH; assumption]. apply IH; [|eapply one_mint_step; eauto|assumption].
    eapply ix_outcome; eauto. }
  apply G; [apply binv_genesis| |exact T]. split; discriminate.
Qed.

(** No token account serves two pools, and no base mint has two pools. *)
Theorem C60_pools_are_separate : forall b a p a' p', history b ->
  b_acc b a = Some (APool p) -> b_acc b a' = Some (APool p') ->
  pa_bvault p <> pa_qvault p /\
  (a <> a' -> pa_bmint p <> pa_bmint p'
     /\ pa_bvault p <> pa_bvault p' /\ pa_bvault p <> pa_qvault p'
     /\ pa_qvault p <> pa_bvault p' /\ pa_qvault p <> pa_qvault p').
Proof.
  intros b a p a' p' H P P'. pose proof (history_one_mint _ H) as (_ & U). apply history_binv in H.
  destruct (bi_pool _ H _ _ P) as (c & nb & nq & w & C & A & BV & QV & NE & TB & TQ & R & S).
  destruct (bi_pool _ H _ _ P') as (c' & nb' & nq' & w' & C' & A' & BV' & QV' & NE' & TB' & TQ' & R' & S').
  split; [congruence|]. intros N. split; [intros E; apply N; eapply U; eauto|].
  rewrite BV, QV, BV', QV'. repeat split; congruence.
Qed.

(** A pool keeps its mint, its config and its two vaults for ever. *)
Theorem C60_pool_keys_are_final : forall b i b' a p, history b -> typed i -> ix b i = Ok b' ->
  b_acc b a = Some (APool p) ->
  exists p', b_acc b' a = Some (APool p') /\ pa_bmint p' = pa_bmint p /\ pa_config p' = pa_config p
    /\ pa_bvault p' = pa_bvault p /\ pa_qvault p' = pa_qvault p
    /\ b_acc b' (Ext (pa_config p)) = b_acc b (Ext (pa_config p)).
Proof.
  intros b i b' a p Hh T H P. apply history_binv in Hh. rename Hh into I.
  destruct (bi_pool _ I _ _ P) as (c & nb & nq & w & C & A & BV & QV & NE & TB & TQ & _).
  destruct (ix_outcome _ _ _ I T H) as (O & _). rewrite C.
  destruct O as [a0 o _ (q & c0 & v & w0 & wa & wa' & b1 & b2 & RN & W & I2 & G)|_ G|N K].
  - assert (P2 : exists p2, b_acc b2 a = Some (APool p2) /\ pa_bmint p2 = pa_bmint p /\ pa_config p2 = pa_config p
      /\ pa_bvault p2 = pa_bvault p /\ pa_qvault p2 = pa_qvault p).
    { destruct (wr_else _ _ _ _ _ _ W a) as [X|X]; [exists p; split; [congruence|auto]|].
      destruct RN. destruct X as [X|[X|[X|[X|[X|X]]]]]; try congruence.
      - assert (q = p) by congruence. subst q. rewrite X. eexists. split; [apply (wr_pool _ _ _ _ _ _ W)|]. auto.
      - destruct X as (? & ? & X & _). congruence.
      - destruct X. congruence. }
    destruct P2 as (p2 & P2 & K1 & K2 & K3 & K4).
    destruct (grows_pool _ _ _ _ _ G P2) as (n & _ & P3). eexists. split; [exact P3|]. simpl.
    repeat (split; [assumption|]).
    eapply grows_config; [exact G|].
    destruct (wr_else _ _ _ _ _ _ W (Ext (pa_config p))) as [X|X]; [congruence|].
    destruct RN. destruct X as [X|[X|[X|[X|[X|X]]]]]; try congruence.
    + destruct X as (? & ? & X & _). discriminate X.
    + destruct X. congruence.
  - destruct (grows_pool _ _ _ _ _ G P) as (n & _ & P3). eexists. split; [exact P3|]. simpl.
    repeat (split; [reflexivity|]). eapply grows_config; eauto.
  - exists p. split; [apply K; exact P|]. repeat (split; [reflexivity|]). apply K. exact C.
Qed.

(** After a handler ran, the accounts of the pool show every world that the result stands for. *)
Lemma done_shows s b a p o c v w wa wa' b1 b2 b' : pool_op o = true ->
  ran b a p c o v w wa wa' b1 -> wrote b a p c w b2 -> binv b2 -> grows s b2 b' -> binv b' ->
  forall l w2, sim l w w2 -> exists p', shows true b' a w2 p'.
Proof.
  intros PO RN W I2 G I' l w2 SM. destruct (sim_eqs _ _ _ SM) as (Q1 & Q2 & Q3 & Q4 & Q5 & Q6 & Q7 & Q8 & Q9 & Q10 & _).
  destruct (exec_env0 _ _ _ PO (rn_exec _ _ _ _ _ _ _ _ _ _ RN)) as (V1 & V2 & V3 & V4).
  pose proof (rn_view _ _ _ _ _ _ _ _ _ _ RN) as VV.
  destruct (grows_pool _ _ _ _ _ G (wr_pool _ _ _ _ _ _ W)) as (n & Ln & PN).
  eexists.
  assert (CC : w_config w = c) by (rewrite V2, VV; reflexivity).
  destruct (grows_auth _ _ _ _ _ _ G (wr_tb _ _ _ _ _ _ W)) as (nb & B1 & _ & B2).
  destruct (grows_auth _ _ _ _ _ _ G (wr_tq _ _ _ _ _ _ W)) as (nq & U1 & _ & U2).
  constructor; [exact PN|simpl; congruence| | | | | | | |]; simpl in *.
  - rewrite Q2, CC. eapply grows_config; [exact G|].
    destruct (wr_else _ _ _ _ _ _ W (Ext (pa_config p))) as [X|X]; [rewrite X; apply RN|].
    destruct RN. destruct X as [X|[X|[X|[X|[X|X]]]]]; try congruence.
    + destruct X as (? & ? & X & _). discriminate X.
    + destruct X. congruence.
  - rewrite Q6. exact Ln.
  - exists nb. split; [exact B2|]. rewrite Q4. exact B1.
  - exists nq. split; [rewrite Q2, CC; exact U2|]. rewrite Q5. exact U1.
  - apply meta_shows; [exact I'|]. rewrite (grows_meta_at _ _ _ a G), (wr_meta _ _ _ _ _ _ W). congruence.
  - apply lp_shows; [exact I'|]. pose proof (grows_lp_at _ _ _ a I2 G). rewrite (wr_lp _ _ _ _ _ _ W) in *. lia.
  - rewrite (gr_ops _ _ _ G), (wr_ops _ _ _ _ _ _ W), Q9, V4, VV. reflexivity.
  - rewrite (gr_admins _ _ _ G), (wr_admins _ _ _ _ _ _ W), Q8, V3, VV. reflexivity.
Qed.
Lemma runs_pool_op b i a o : runs b i = Some (a, o) -> pool_op o = true.
Proof.
  intros R. destruct i; simpl in R; try discriminate R; try (injection R as <- <-; reflexivity).
  destruct (b_acc b pool) as [[]|]; try discriminate R. injection R as <- <-. reflexivity.
Qed.

(** A successful instruction on a pool is a step of the single-pool model, whatever accounts the
    caller passed. *)
Theorem C60_instructions_follow_the_model : forall b i b' a o p, history b -> typed i -> ix b i = Ok b' ->
  runs b i = Some (a, o) -> b_acc b a = Some (APool p) ->
  exists w w' p', reachable w /\ shows false b a w p /\ exec w o = Ok w' /\ shows true b' a w' p'.
Proof.
  intros b i b' a o p Hh T H R P. apply history_binv in Hh. rename Hh into I.
  destruct (ix_outcome _ _ _ I T H) as (O & I').
  destruct O as [a0 o0 R0 (q & c & v & w & wa & wa' & b1 & b2 & RN & W & I2 & G)|N|N]; try congruence.
  rewrite R in R0. injection R0 as <- <-.
  assert (q = p) by (destruct RN; congruence). subst q.
  pose proof (rn_view _ _ _ _ _ _ _ _ _ _ RN) as VV.
  destruct (done_shows _ _ _ _ _ _ _ _ _ _ _ _ _ (runs_pool_op _ _ _ _ R) RN W I2 G I' _ _
    (rn_sim _ _ _ _ _ _ _ _ _ _ RN)) as (p' & SH).
  exists wa, wa', p'. split; [apply RN|]. split.
  { destruct RN. rewrite VV in rn_agree. eapply agree_shows; eauto. }
  split; [apply RN|exact SH].
Qed.

(** ** C61: an instruction touches only its own pool and the accounts of its signer *)

Theorem C61_other_pools_untouched : forall b i b' a p, history b -> typed i -> ix b i = Ok b' ->
  b_acc b a = Some (APool p) -> (forall o, runs b i <> Some (a, o)) ->
  exists p', b_acc b' a = Some (APool p') /\ pa_pool p' = pa_pool p /\ pa_lamports p <= pa_lamports p'
    /\ balance b (pa_bvault p) <= balance b' (pa_bvault p)
    /\ balance b (pa_qvault p) <= balance b' (pa_qvault p)
    /\ (forall m l, b_acc b (MetaA a) = Some (AMeta m a l) ->
          b_acc b' (MetaA a) = Some (AMeta m a l)
          /\ forall lm, l = Some lm -> balance b (AtaA Auth lm) <= balance b' (AtaA Auth lm)).
Proof.
  intros b i b' a p Hh T H P NR. apply history_binv in Hh. rename Hh into I.
  destruct (bi_pool _ I _ _ P) as (c & nb & nq & w & C & A & BV & QV & NE & TB & TQ & _).
  destruct (ix_outcome _ _ _ I T H) as (O & _).
  assert (GR : forall s b2, b_acc b2 a = Some (APool p) ->
     b_acc b2 (pa_bvault p) = b_acc b (pa_bvault p) -> b_acc b2 (pa_qvault p) = b_acc b (pa_qvault p) ->
     (forall m l, b_acc b (MetaA a) = Some (AMeta m a l) -> b_acc b2 (MetaA a) = Some (AMeta m a l)
        /\ forall lm, l = Some lm -> b_acc b2 (AtaA Auth lm) = b_acc b (AtaA Auth lm)) ->
     grows s b2 b' ->
     exists p', b_acc b' a = Some (APool p') /\ pa_pool p' = pa_pool p /\ pa_lamports p <= pa_lamports p'
       /\ balance b (pa_bvault p) <= balance b' (pa_bvault p)
       /\ balance b (pa_qvault p) <= balance b' (pa_qvault p)
       /\ (forall m l, b_acc b (MetaA a) = Some (AMeta m a l) ->
          b_acc b' (MetaA a) = Some (AMeta m a l)
          /\ forall lm, l = Some lm -> balance b (AtaA Auth lm) <= balance b' (AtaA Auth lm))).
  { intros s b2 P2 B2 Q2 M2 G. destruct (grows_pool _ _ _ _ _ G P2) as (n & L & P3).
    exists (set_lamports p n). split; [exact P3|]. split; [reflexivity|]. split; [exact L|].
    rewrite TB in B2. rewrite TQ in Q2.
    destruct (grows_auth _ _ _ _ _ _ G B2) as (x & X1 & _ & X2).
    destruct (grows_auth _ _ _ _ _ _ G Q2) as (y & Y1 & _ & Y2).
    unfold balance. rewrite TB, TQ, X2, Y2. split; [exact X1|]. split; [exact Y1|].
    intros m l M. destruct (M2 _ _ M) as (M3 & L3). split; [apply (proj1 (grows_meta _ _ _ _ _ _ _ G)); exact M3|].
    intros lm EL. destruct (bi_meta _ I _ _ _ _ M) as (_ & _ & Z0). destruct (Z0 lm EL) as (k & TL).
    specialize (L3 lm EL). rewrite TL in L3. destruct (grows_auth _ _ _ _ _ _ G L3) as (z & Z1 & _ & Z2).
    rewrite TL, Z2. exact Z1. }
  destruct O as [a0 o R (q & c0 & v & w0 & wa & wa' & b1 & b2 & RN & W & I2 & G)|_ G|N K].
  - assert (NA : a0 <> a) by (intros ->; exact (NR o R)).
    assert (U : forall y x, b_acc b y = Some x -> y <> a0 -> y <> pa_bvault q -> y <> pa_qvault q -> y <> MetaA a0 ->
              (forall lm, y = AtaA Auth lm -> ~ ours b a0 lm) -> b_acc b2 y = b_acc b y).
    { intros y x E N1 N2 N3 N4 N5. destruct (wr_else _ _ _ _ _ _ W y) as [X|X]; [exact X|].
      destruct X as [X|[X|[X|[X|[X|X]]]]]; try contradiction.
      - destruct X as (lm & n & X & OU & _). exfalso. exact (N5 lm X OU).
      - destruct X. congruence. }
    assert (VA : forall m, b_acc b (VaultA m a) <> None -> b_acc b2 (VaultA m a) = b_acc b (VaultA m a)).
    { intros m E. destruct (b_acc b (VaultA m a)) as [x|] eqn:EX; [|contradiction]. rewrite <- EX.
      destruct RN. eapply U; [exact EX|congruence|congruence|congruence|congruence|intros; discriminate]. }
    eapply (GR _ b2); [| | | |exact G].
    + rewrite <- P. destruct RN. eapply U; [exact P|congruence|congruence|congruence|congruence|intros; congruence].
    + rewrite BV in *. apply VA. congruence.
    + rewrite QV in *. apply VA. congruence.
    + intros m l M. split.
      * rewrite <- M. destruct RN. eapply U; [exact M|congruence|congruence|congruence|congruence|intros; discriminate].
      * intros lm ->. destruct (bi_meta _ I _ _ _ _ M) as (_ & _ & Z0). destruct (Z0 lm eq_refl) as (k & TL).
        destruct RN. eapply U; [exact TL|congruence|congruence|congruence|congruence|].
        intros lm' E. injection E as <-. intros [OU|(m' & OU)]; [congruence|].
        pose proof (bi_lp _ I _ _ _ _ _ _ _ M OU). congruence.
  - eapply GR; [exact P|reflexivity|reflexivity| |exact G]. auto.
  - exists p. split; [apply K; exact P|]. split; [reflexivity|]. split; [lia|].
    pose proof (K _ _ TB) as KB. pose proof (K _ _ TQ) as KQ. unfold balance. rewrite TB, TQ, KB, KQ.
    split; [lia|]. split; [lia|]. intros m l M. split; [apply K; exact M|]. intros lm EL.
    destruct (bi_meta _ I _ _ _ _ M) as (_ & _ & Z0). destruct (Z0 lm EL) as (k & TL). rewrite TL, (K _ _ TL). lia.
Qed.

(** A token account never disappears and keeps its mint. It loses tokens, or changes owner, only if
    the signer of a swap (or of a direct call to the token program) owns it, or if it is one of the
    accounts of the pool the instruction runs on. *)
Theorem C61_who_can_lose_tokens : forall b i b' y m own n, history b -> typed i -> ix b i = Ok b' ->
  b_acc b y = Some (ATok m own n) ->
  exists own' n', b_acc b' y = Some (ATok m own' n') /\
    ((own' = own /\ n <= n')
     \/ (exists s, spender i = Some s /\ own = Ext s)
     \/ (own' = own /\ own = Auth /\ exists a o p, runs b i = Some (a, o) /\ b_acc b a = Some (APool p)
          /\ (y = pa_bvault p \/ y = pa_qvault p
              \/ exists mt lm, b_acc b (MetaA a) = Some (AMeta mt a (Some lm)) /\ y = AtaA Auth lm))).
Proof.
  intros b i b' y m own n Hh T H E. apply history_binv in Hh. rename Hh into I.
  destruct (ix_outcome _ _ _ I T H) as (O & _).
  assert (GR : forall b2 own2 n2, b_acc b2 y = Some (ATok m own2 n2) -> grows (spender i) b2 b' ->
     exists own' n', b_acc b' y = Some (ATok m own' n') /\ ((own' = own2 /\ n2 <= n') \/ exists s, spender i = Some s /\ own2 = Ext s)).
  { intros b2 own2 n2 E2 G. pose proof (gr_acc _ _ _ G y) as A. rewrite E2 in A. simpl in A.
    destruct (free (spender i) own2) eqn:F.
    - destruct A as (o' & n' & A). exists o', n'. split; [exact A|]. right.
      unfold free in F. destruct own2; try discriminate F. destruct (spender i) as [s|]; [|discriminate F].
      exists s. split; [reflexivity|]. f_equal. lia.
    - destruct A as (n' & L & _ & A). exists own2, n'. split; [exact A|]. left. auto. }
  destruct O as [a0 o R (q & c0 & v & w0 & wa & wa' & b1 & b2 & RN & W & I2 & G)|_ G|N K].
  - assert (EX : (b_acc b2 y = Some (ATok m own n)) \/ (own = Auth /\ (exists n2, b_acc b2 y = Some (ATok m Auth n2))
       /\ (y = pa_bvault q \/ y = pa_qvault q
              \/ exists mt lm, b_acc b (MetaA a0) = Some (AMeta mt a0 (Some lm)) /\ y = AtaA Auth lm))).
    { destruct (wr_else _ _ _ _ _ _ W y) as [X|X]; [left; congruence|].
      pose proof (wr_tb _ _ _ _ _ _ W). pose proof (wr_tq _ _ _ _ _ _ W). pose proof (wr_tok _ _ _ _ _ _ W).
      destruct RN. destruct X as [X|[X|[X|[X|[X|X]]]]].
      - exfalso. congruence.
      - right. subst y. rewrite rn_tb in E. injection E as <- <- <-. split; [reflexivity|]. split; [eauto|auto].
      - right. subst y. rewrite rn_tq in E. injection E as <- <- <-. split; [reflexivity|]. split; [eauto|auto].
      - left. subst y. destruct H2 as [X|[X|(? & ? & ? & X)]]; congruence.
      - right. destruct X as (lm & k & -> & OU & X). destruct OU as [OU|(mt & OU)]; [congruence|].
        destruct (bi_meta _ I _ _ _ _ OU) as (_ & _ & Z0). destruct (Z0 lm eq_refl) as (z & TL).
        rewrite TL in E. injection E as <- <- <-. split; [reflexivity|]. split; [eauto|]. right. right. eauto.
      - destruct X. congruence. }
    destruct EX as [EX|(-> & (n2 & EX) & Y)].
    + destruct (GR _ _ _ EX G) as (o' & n' & A & [B|B]); exists o', n'; auto.
    + destruct (GR _ _ _ EX G) as (o' & n' & A & [(-> & B)|(s & _ & B)]); [|discriminate B].
      exists Auth, n'. split; [exact A|]. right. right. split; [reflexivity|]. split; [reflexivity|].
      exists a0, o, q. split; [exact R|]. split; [apply RN|exact Y].
  - destruct (GR _ _ _ E G) as (o' & n' & A & [B|B]); exists o', n'; auto.
  - exists own, n. split; [apply K; exact E|]. left. split; [reflexivity|lia].
Qed.

(** Configs never change. *)
Theorem C61_configs_are_final : forall b i b' y c, history b -> typed i -> ix b i = Ok b' ->
  b_acc b y = Some (AConfig c) -> b_acc b' y = Some (AConfig c).
Proof.
  intros b i b' y c Hh T H E. apply history_binv in Hh. rename Hh into I.
  destruct (ix_outcome _ _ _ I T H) as (O & _).
  destruct O as [a0 o R (q & c0 & v & w0 & wa & wa' & b1 & b2 & RN & W & I2 & G)|_ G|N K].
  - eapply grows_config; [exact G|]. destruct (wr_else _ _ _ _ _ _ W y) as [X|X]; [congruence|].
    destruct RN. destruct X as [X|[X|[X|[X|[X|X]]]]]; try congruence.
    + subst y. destruct (wr_tok _ _ _ _ _ _ W) as [X|[X|(? & ? & ? & X)]]; congruence.
    + destruct X as (lm & ? & -> & OU & _). destruct OU as [OU|(mt & OU)]; [congruence|].
      destruct (bi_meta _ I _ _ _ _ OU) as (_ & _ & Z0). destruct (Z0 lm eq_refl) as (z & TL). congruence.
    + destruct X. congruence.
  - eapply grows_config; eauto.
  - apply K. exact E.
Qed.

(** ** C62: payouts with a fixed beneficiary *)

Lemma take_dst_in k ds a ds' : take_dst k ds = Some (a, ds') -> In (k, a) ds /\ incl ds' ds.
Proof.
  revert a ds'. induction ds as [|[k' x] ds IH]; intros a ds' H; simpl in H; [discriminate H|].
  assert (R : (k = k' /\ a = x /\ ds' = ds) \/ exists r, take_dst k ds = Some (a, r) /\ ds' = (k', x) :: r).
  { destruct k, k'; try (injection H as -> ->; left; repeat split; reflexivity);
    (destruct (take_dst _ ds) as [[r ds0]|]; [|discriminate H]; injection H as -> <-; right; eauto). }
  destruct R as [(-> & -> & ->)|(r & R & ->)].
  - split; [left; reflexivity|]. intros z Z. right. exact Z.
  - destruct (IH _ _ R) as (J & K). split; [right; exact J|]. intros z [Z|Z]; [left; exact Z|right; auto].
Qed.

Lemma credit_sol_balance b a n b' y : credit_sol b a n = Ok b' -> balance b' y = balance b y.
Proof.
  unfold credit_sol. intros H. apply bind_ok in H. destruct H as (? & _ & H).
  destruct (b_acc b a) as [[]|] eqn:L; apply Ok_inj in H; subst b'; try reflexivity.
  unfold balance. destruct (addr_dec a y) as [<-|N]; [rewrite put_same, L; reflexivity|].
  rewrite put_other by assumption. reflexivity.
Qed.

(** An account gains only what was sent to it. *)
Lemma deliver_gain mo ts : forall b ds b', deliver b mo ts ds = Ok b' ->
  (forall t, In t ts -> leaves t = true -> t_token t <> TSol -> 0 <= t_amount t)
  /\ forall y, balance b y < balance b' y -> exists t, In t ts /\ leaves t = true /\ In (t_token t, y) ds
       /\ t_token t <> TSol /\ 0 < t_amount t.
Proof.
  induction ts as [|t ts IH]; intros b ds b' H; cbn [deliver] in H.
  - apply Ok_inj in H. subst. split; [intros; contradiction|]. intros; lia.
  - destruct (leaves t) eqn:L.
    + destruct (take_dst (t_token t) ds) as [[a ds']|] eqn:TD; [|discriminate H]. apply take_dst_in in TD.
      destruct TD as (J & K). apply bind_ok in H. destruct H as (b1 & C & H).
      destruct (IH _ _ _ H) as (N & G). clear IH.
      assert (ST : (t_token t = TSol /\ forall y, balance b1 y = balance b y)
                   \/ (t_token t <> TSol /\ 0 <= t_amount t
                       /\ forall y, balance b1 y = balance b y + if addr_dec a y then t_amount t else 0)).
      { assert (CR : forall m, credit b a m (t_amount t) = Ok b1 -> 0 <= t_amount t
                       /\ forall y, balance b1 y = balance b y + if addr_dec a y then t_amount t else 0).
        { intros m X. apply credit_ok in X. destruct X as (o & x & LL & NN & _ & ->). split; [lia|].
          intros y. unfold balance. destruct (addr_dec a y) as [<-|NE].
          - rewrite put_same, LL. lia.
          - rewrite put_other by assumption. lia. }
        destruct (t_token t); [right|right|left|right];
        first [ split; [discriminate|]; eapply CR; exact C
              | split; [reflexivity|]; intros; eapply credit_sol_balance; eauto ]. }
      split.
      * intros t' [<-|I] L' S; [|auto]. destruct ST as [(X & _)|(_ & X & _)]; [contradiction|exact X].
      * intros y Y. destruct (Z.eq_dec (balance b1 y) (balance b y)) as [EQ|NQ].
        { destruct (G y ltac:(lia)) as (t' & I & L' & D & S & A). exists t'. split; [right; exact I|]. auto. }
        destruct ST as [(_ & X)|(S & A & X)]; [specialize (X y); contradiction|].
        specialize (X y). destruct (addr_dec a y) as [<-|NE]; [|lia].
        exists t. split; [left; reflexivity|]. repeat (split; [assumption|]). lia.
    + destruct (IH _ _ _ H) as (N & G). split.
      * intros t' [<-|I] L'; [congruence|auto].
      * intros y Y. destruct (G y Y) as (t' & I & X). exists t'. split; [right; exact I|]. exact X.
Qed.

Lemma sent_cons k t l : sent k (t :: l) =
  (if leaves t then match t_token t, k with
     | TBase, TBase | TQuote, TQuote | TSol, TSol | TLp, TLp => t_amount t | _, _ => 0 end else 0) + sent k l.
Proof. unfold sent. cbn [fold_right]. destruct (leaves t); [|lia]. destruct (t_token t), k; lia. Qed.

Lemma sent_pos k ts : (forall t, In t ts -> leaves t = true -> t_token t <> TSol -> 0 <= t_amount t) ->
  k <> TSol -> 0 <= sent k ts.
Proof.
  intros N K. induction ts as [|x l IH]; [unfold sent; simpl; lia|]. rewrite sent_cons.
  assert (0 <= sent k l) by (apply IH; intros t I; apply N; right; exact I).
  pose proof (N x (or_introl eq_refl)) as A. destruct (leaves x); [|lia]. specialize (A eq_refl).
  destruct (t_token x), k; try lia; try contradiction; (assert (0 <= t_amount x) by (apply A; discriminate); lia).
Qed.

Lemma sent_at_least k ts t : (forall t, In t ts -> leaves t = true -> t_token t <> TSol -> 0 <= t_amount t) ->
  k <> TSol -> In t ts -> leaves t = true -> t_token t = k -> t_amount t <= sent k ts.
Proof.
  intros N K. induction ts as [|x l IH]; intros J L E; [contradiction|]. rewrite sent_cons.
  assert (N' : forall t, In t l -> leaves t = true -> t_token t <> TSol -> 0 <= t_amount t)
    by (intros z I; apply N; right; exact I).
  pose proof (sent_pos k l N' K). destruct J as [<-|J].
  - rewrite L, E. destruct k; try contradiction; lia.
  - specialize (IH N' J L E). pose proof (N x (or_introl eq_refl)) as A. destruct (leaves x); [|lia].
    specialize (A eq_refl).
    destruct (t_token x), k; try lia; try contradiction; (assert (0 <= t_amount x) by (apply A; discriminate); lia).
Qed.

(** The vaults gain nothing from a payout. *)
Lemma payout_gain b a p c o v w wa wa' b1 mo ds b' : ran b a p c o v w wa wa' b1 ->
  pool_op o = true -> is_swap o = false -> sends_abroad o = false -> deliver b1 mo (w_log w) ds = Ok b' ->
  forall y, balance b y < balance b' y -> exists k, In (k, y) ds /\ k <> TSol /\ 0 < sent k (w_log w).
Proof.
  intros RN PO SW AB D y Y.
  destruct (ran_vaults _ _ _ _ _ _ _ _ _ _ PO RN) as (F & _ & B & Q).
  destruct (deliver_gain _ _ _ _ _ D) as (N & G).
  assert (F' : Forall (fun t => leaves t = true \/ from_user t = true \/ abroad t = true) (w_log w)).
  { eapply Forall_impl; [|exact F]. intros t. apply expected_kinds. }
  assert (S0 : forall k, k <> TSol -> 0 <= sent k (w_log w)) by (intros k K; apply sent_pos; assumption).
  assert (NB : forall k, k <> TSol -> net k (w_log w) <= 0).
  { intros k K. rewrite net_split by exact F'. rewrite (user_in_none o), (outflow_none o) by assumption.
    specialize (S0 k K). lia. }
  pose proof (NB TBase ltac:(discriminate)) as NB1. pose proof (NB TQuote ltac:(discriminate)) as NB2.
  assert (LE : balance b1 y <= balance b y).
  { destruct (ran_stored _ _ _ _ _ _ _ _ _ _ RN) as (_ & _ & _ & S4 & S5 & S6 & S7). destruct RN. unfold balance.
    destruct (addr_dec y a) as [->|N1]; [rewrite S4, rn_pool; lia|].
    destruct (addr_dec y (pa_bvault p)) as [->|N2]; [rewrite S5, rn_tb; lia|].
    destruct (addr_dec y (pa_qvault p)) as [->|N3]; [rewrite S6, rn_tq; lia|].
    rewrite S7 by assumption. lia. }
  destruct (G y ltac:(lia)) as (t & I & L & D0 & S & A).
  exists (t_token t). split; [exact D0|]. split; [exact S|].
  pose proof (sent_at_least (t_token t) (w_log w) t N S I L eq_refl). lia.
Qed.

(** Protocol fees go to the token accounts of the treasury. *)
Theorem C62_protocol_fees_to_treasury : forall b pool config bvault qvault bmint qmint ta tb op s mb mq b' p c y,
  history b -> ix b (IClaimProtocol pool config bvault qvault bmint qmint ta tb op s mb mq) = Ok b' ->
  b_acc b pool = Some (APool p) -> b_acc b (Ext (pa_config p)) = Some (AConfig c) ->
  balance b y < balance b' y ->
  exists m n, (m = pa_bmint p \/ m = c_quote_mint c)
    /\ y = AtaA (Ext (b_treasury b)) m /\ b_acc b y = Some (ATok m (Ext (b_treasury b)) n).
Proof.
  intros b pool config bvault qvault bmint qmint ta tb op s mb mq b' p c y Hh H P C Y.
  apply history_binv in Hh. simpl in H. unfold exec_claim_protocol in H. do 10 bo H. chk. bo H.
  destruct v9 as [w b1]. do 2 bo H. subst.
  assert (v1 = p) by congruence. subst v1. assert (v = c) by congruence. subst v.
  destruct (run_on_ran _ _ _ (OClaimProtocol s mb mq) _ _ _ _ _ _ _ Hh E1 eq_refl eq_refl eq_refl eq_refl eq_refl eq_refl E9)
    as (c0 & v & wa & wa' & RN).
  destruct (payout_gain _ _ _ _ _ _ _ _ _ _ _ _ _ RN eq_refl eq_refl eq_refl H y Y) as (k & I & K & S).
  destruct I as [I|[I|[]]]; injection I as <- <-.
  - replace (0 <? sent TBase (w_log w)) with true in E10 by lia. destruct (is_ata_ok _ _ _ _ _ E10) as (-> & n & T).
    exists (pa_bmint p), n. auto.
  - replace (0 <? sent TQuote (w_log w)) with true in E11 by lia. destruct (is_ata_ok _ _ _ _ _ E11) as (-> & n & T).
    exists (c_quote_mint c), n. auto.
Qed.

(** Fees taken out to be swapped by the zap program go to the operator who signs. *)
Theorem C62_zapped_fees_to_operator : forall b pool config vault mint receiver op s ma al ok b' p c y,
  history b -> ix b (IZap pool config vault mint receiver op s ma al ok) = Ok b' ->
  b_acc b pool = Some (APool p) -> b_acc b (Ext (pa_config p)) = Some (AConfig c) ->
  balance b y < balance b' y ->
  exists m n, (m = pa_bmint p \/ m = c_quote_mint c)
    /\ y = AtaA (Ext s) m /\ b_acc b y = Some (ATok m (Ext s) n).
Proof.
  intros b pool config vault mint receiver op s ma al ok b' p c y Hh H P C Y.
  apply history_binv in Hh. simpl in H. unfold exec_zap in H. do 6 bo H. cbv zeta in H. bo H. chk. bo H.
  destruct v6 as [w b1]. do 2 bo H. assert (v0 = p) by congruence. subst v0 config. assert (v = c) by congruence. subst v.
  assert (EB : (if mint =? pa_bmint p then vault else pa_bvault p) = pa_bvault p)
    by (rewrite E5; destruct (mint =? pa_bmint p); reflexivity).
  assert (EQ : (if mint =? pa_bmint p then pa_qvault p else vault) = pa_qvault p)
    by (rewrite E5; destruct (mint =? pa_bmint p); reflexivity).
  destruct (run_on_ran _ _ _ (OZap s ma (mint =? pa_bmint p) al ok) _ _ _ _ _ _ _ Hh P eq_refl eq_refl EB EQ eq_refl eq_refl E6)
    as (c0 & v & wa & wa' & RN).
  destruct (payout_gain _ _ _ _ _ _ _ _ _ _ _ _ _ RN eq_refl eq_refl eq_refl H y Y) as (k & I & K & S).
  apply require_ok in E4. destruct (is_ata_ok _ _ _ _ _ E7) as (ER & n & T).
  exists mint, n. split; [lia|].
  destruct I as [I|[I|[]]]; injection I as <- <-; auto.
Qed.

(** Leftover base tokens go to the receiver named in the config. *)
Theorem C62_leftover_to_receiver : forall b pool config bvault bmint dst r b' p c y,
  history b -> ix b (ILeftover pool config bvault bmint dst r) = Ok b' ->
  b_acc b pool = Some (APool p) -> b_acc b (Ext (pa_config p)) = Some (AConfig c) ->
  balance b y < balance b' y ->
  exists n, y = AtaA (Ext (c_leftover_receiver c)) (pa_bmint p)
    /\ b_acc b y = Some (ATok (pa_bmint p) (Ext (c_leftover_receiver c)) n).
Proof.
  intros b pool config bvault bmint dst r b' p c y Hh H P C Y.
  apply history_binv in Hh. simpl in H. unfold exec_leftover in H. do 8 bo H. chk. bo H. destruct v7 as [w b1]. subst.
  assert (v1 = p) by congruence. subst v1. assert (v = c) by congruence. subst v.
  destruct (run_on_ran _ _ _ OLeftover _ _ _ _ _ _ _ Hh P eq_refl eq_refl eq_refl eq_refl eq_refl eq_refl E7)
    as (c0 & v & wa & wa' & RN).
  destruct (payout_gain _ _ _ _ _ _ _ _ _ _ _ _ _ RN eq_refl eq_refl eq_refl H y Y) as (k & I & K & S).
  destruct (is_ata_ok _ _ _ _ _ E5) as (-> & n & T). exists n.
  destruct I as [I|[]]; injection I as <- <-; auto.
Qed.

(** LP tokens of a DAMM v1 pool go to the account of the partner or of the creator, whoever calls. *)
Theorem C62_lp_tokens_to_owner : forall b pool meta lm source dst k b' p y,
  history b -> ix b (IClaimLp pool meta lm source dst k) = Ok b' ->
  b_acc b pool = Some (APool p) -> balance b y < balance b' y ->
  exists m n, b_acc b (MetaA pool) = Some (AMeta m pool (Some lm))
    /\ (k = m_partner m \/ k = p_creator (pa_pool p))
    /\ y = AtaA (Ext k) lm /\ b_acc b y = Some (ATok lm (Ext k) n).
Proof.
  intros b pool meta lm source dst k b' p y Hh H P Y.
  apply history_binv in Hh. simpl in H. unfold exec_claim_lp in H. do 5 bo H. destruct v3 as [w bx]. cbn [fst] in H. bo H.
  destruct (is_ata_ok _ _ _ _ _ E0) as (-> & n & T). chk. assert (v1 = p) by congruence. subst v1.
  unfold lp_accounts in E. bo E. bo E. destruct v4 as [[m0 vp] l0]. do 4 bo E. chk. apply load_meta_ok in E6.
  apply ok_or_ok in E7. apply Ok_inj in E. subst v vp l0 v4.
  destruct (is_ata_ok _ _ _ _ _ E10) as (-> & ns & TS). unfold load_tok in E2. rewrite TS in E2. apply Ok_inj in E2.
  subst v2. cbn [snd] in E3.
  destruct (meta_unique _ _ _ _ _ Hh E6) as (-> & MA).
  assert (LA : lp_at b pool = ns) by (unfold lp_at; rewrite E6, TS; reflexivity).
  destruct (run_on_ran _ _ _ (OClaimLp k) _ _ _ _ _ _ _ Hh P eq_refl eq_refl eq_refl eq_refl (eq_sym MA) (eq_sym LA) E3)
    as (c0 & v & wa & wa' & RN).
  pose proof (rn_exec _ _ _ _ _ _ _ _ _ _ RN) as X. pose proof (rn_view _ _ _ _ _ _ _ _ _ _ RN) as V.
  assert (LV : w_lp v = ns) by (rewrite V; exact LA). assert (L0 : w_log v = []) by (rewrite V; reflexivity).
  assert (MV : w_meta v = Some m0) by (rewrite V; exact MA). assert (PV : w_pool v = pa_pool p) by (rewrite V; reflexivity).
  clear V. unfold exec in X. apply bind_ok in X. destruct X as (? & _ & X). unfold claim_lp in X.
  bo X. clear E. bo X. rewrite MV in E. simpl in E. apply Ok_inj in E. subst v4.
  bo X. destruct v4 as [m9 x9].
  assert (OW : k = m_partner m0 \/ k = p_creator (pa_pool p)).
  { rewrite PV in E. destruct (k =? m_partner m0) eqn:K1, (k =? p_creator (pa_pool p)) eqn:K2; try discriminate E; lia. }
  unfold pay_lp in X. bo X. apply Ok_inj in X.
  assert (LW : w_lp w = ns - x9) by (subst w; simpl; lia).
  assert (LG : w_log w = [mkTransfer TLp PPool (PKey k) x9]) by (subst w; simpl; rewrite L0; reflexivity).
  rewrite LG in H. cbn [deliver leaves t_from t_to t_token take_dst bind] in H.
  bo H. apply Ok_inj in H. subst v8. apply credit_ok in E7. destruct E7 as (ow & z & L & NN & _ & ->).
  exists m0, n. split; [exact E6|]. split; [exact OW|].
  assert (Y2 : y = AtaA (Ext k) lm); [|subst y; auto].
  destruct (addr_dec (AtaA (Ext k) lm) y) as [->|NE]; [reflexivity|]. exfalso.
  unfold balance in Y. rewrite put_other in Y by assumption. simpl in NN.
  unfold lp_store in E4. apply bind_ok in E4. destruct E4 as (m2 & EM & E4). apply Ok_inj in E4. subst v3.
  destruct (addr_dec (AtaA Auth lm) y) as [<-|N2]; [rewrite put_same, TS in Y; lia|].
  rewrite put_other in Y by assumption.
  destruct (addr_dec (MetaA pool) y) as [<-|N3]; [rewrite put_same, E6 in Y; lia|].
  rewrite put_other in Y by assumption. lia.
Qed.

(** ** C63: tokens are neither created nor lost *)

(** Whatever accounts are passed (also the same account twice), the tokens of every mint add up over
    the accounts: all that leaves them is what a migration or a locker hands to other programs. *)
Theorem C63_tokens_add_up : forall b i b' a o p c m l, history b -> typed i -> ix b i = Ok b' ->
  runs b i = Some (a, o) -> b_acc b a = Some (APool p) -> b_acc b (Ext (pa_config p)) = Some (AConfig c) ->
  match i with IMigrateV1 _ _ _ _ _ lm _ _ | ILockLp _ _ lm _ _ => m <> lm | _ => True end ->
  NoDup l -> covers b b' l ->
  exists w w', reachable w /\ shows false b a w p /\ exec w o = Ok w'
    /\ total b' m l = total b m l - (if m =? pa_bmint p then outflow TBase (moved w o)
                                     else if m =? c_quote_mint c then outflow TQuote (moved w o) else 0).
Proof.
  intros b i b' a o p c m l Hh T H R P C KM ND CV. apply history_binv in Hh.
  destruct (ix_accounted _ _ _ _ _ Hh T H R) as (q & c0 & v & w & wa & wa' & b1 & RN & MV & F & d & MO & DD).
  assert (q = p) by (destruct RN; congruence). subst q. assert (c0 = c) by (destruct RN; congruence). subst c0.
  exists wa, wa'. split; [apply RN|]. split.
  { destruct RN. rewrite rn_view in rn_agree. eapply agree_shows; eauto. }
  split; [apply RN|]. destruct MO as (_ & MO). rewrite (MO m l ND CV), DD by exact KM. unfold lost. rewrite MV.
  pose proof (rn_ne _ _ _ _ _ _ _ _ _ _ RN).
  destruct (m =? pa_bmint p) eqn:E1, (m =? c_quote_mint c) eqn:E2;
  replace (pa_bmint p =? m) with (m =? pa_bmint p) by lia; replace (c_quote_mint c =? m) with (m =? c_quote_mint c) by lia;
  rewrite E1, E2; lia.
Qed.

(** Such lists exist: an instruction changes finitely many accounts. *)
Theorem C63_few_accounts_change : forall b i b' a o, history b -> typed i -> ix b i = Ok b' ->
  runs b i = Some (a, o) -> exists l, NoDup l /\ covers b b' l.
Proof.
  intros b i b' a o Hh T H R. apply history_binv in Hh.
  destruct (ix_accounted _ _ _ _ _ Hh T H R) as (q & c0 & v & w & wa & wa' & b1 & RN & MV & F & d & ((s & CV) & _) & _).
  exists (nodup addr_dec s). split; [apply NoDup_nodup|].
  intros y. destruct (CV y) as [I|E]; [left; apply nodup_In; exact I|right; exact E].
Qed.

(** In particular trades, claims and withdrawals conserve every mint exactly. *)
Definition stays_inside (i : instr) : Prop :=
  match i with ICreateLocker _ _ _ _ _ | IMigrateV1 _ _ _ _ _ _ _ _ | IMigrateV2 _ _ _ _ _ _ _ _ | ILockLp _ _ _ _ _ => False
  | _ => True end.
Theorem C63_trades_and_claims_conserve : forall b i b' a o m l, history b -> typed i -> ix b i = Ok b' ->
  runs b i = Some (a, o) -> stays_inside i -> NoDup l -> covers b b' l -> total b' m l = total b m l.
Proof.
  intros b i b' a o m l Hh T H R SI ND CV. apply history_binv in Hh.
  destruct (ix_accounted _ _ _ _ _ Hh T H R) as (q & c0 & v & w & wa & wa' & b1 & RN & MV & F & d & MO & DD).
  destruct MO as (_ & MO). rewrite (MO m l ND CV).
  assert (AB : sends_abroad o = false /\ known_mint i m).
  { clear -R SI. destruct i; simpl in R; try discriminate R; try contradiction; try (injection R as <- <-; split; [reflexivity|exact I]).
    destruct (b_acc b pool) as [[]|]; try discriminate R. injection R as <- <-. split; [reflexivity|exact I]. }
  destruct AB as (AB & KM). rewrite DD by exact KM. unfold lost. rewrite !(outflow_none o) by assumption.
  destruct (_ =? m), (_ =? m); lia.
Qed.

(** ** Concrete cases *)

(** Two pools under one config (key 7, quote mint 11): base mints 12 and 13, both created by key 44.
    Key 500 trades and holds the quote account [Ext 501] and the base accounts [Ext 502], [Ext 503];
    [Ext 504] is a token account of quote mint 11 that key 500 made for itself. *)
Definition pool12 : addr := PoolA 7 12 11.
Definition pool13 : addr := PoolA 7 13 11.
Definition opening : list instr :=
  [ XMint 11;
    ICreateConfig 7 fx_paramsA true true 1700000000 11 22 33;
    IInitPool 7 12 11 44 55 0 1000 1700000000;
    IInitPool 7 13 11 44 55 0 1000 1700000000;
    XAccount (Ext 501) 11 (Ext 500) 300000000000; XAccount (Ext 502) 12 (Ext 500) 0;
    XAccount (Ext 503) 13 (Ext 500) 0; XAccount (Ext 504) 11 (Ext 500) 5;
    XAccount (AtaA (Ext 66) 11) 11 (Ext 66) 0; XAccount (AtaA (Ext 66) 12) 12 (Ext 66) 0;
    ICreateOperator 99 88 1 ].
Definition buy (pool : addr) (config : Z) (bvault qvault : addr) (bmint : Z) (inp out : addr) (a0 now : Z) : instr :=
  ISwap pool config bvault qvault bmint 11 inp out None 500 1 a0 0 (1000 + (now - 1700000000) * 2) now plain_view.
Definition market : bank := brun (genesis [99] 66)
  (opening ++ [buy pool12 7 (VaultA 12 pool12) (VaultA 11 pool12) 12 (Ext 501) (Ext 502) 2000000000 1700000030]).

Lemma market_history : history market.
Proof.
  eexists [99], 66, _. split; [|reflexivity].
  repeat (constructor; [first [exact I | split; [apply typedA|vm_compute; intuition discriminate]
                              | split; vm_compute; intuition discriminate]|]). constructor.
Qed.

Definition ok {A} (r : res A) : bool := match r with Ok _ => true | Err _ => false end.
Definition pool_at (b : bank) (a : addr) : bool := match b_acc b a with Some (APool _) => true | _ => false end.

(** The two pools exist, and the first trade went through pool 12 alone. *)
Example C60_case : history market /\ pool_at market pool12 = true /\ pool_at market pool13 = true
  /\ balance market (VaultA 11 pool12) = 2000000000 /\ balance market (VaultA 11 pool13) = 0
  /\ balance market (Ext 501) = 298000000000 /\ 0 < balance market (Ext 502)
  /\ balance market (VaultA 12 pool12) + balance market (Ext 502) = balance market (VaultA 13 pool13).
Proof. split; [exact market_history|]. vm_compute. repeat split; reflexivity. Qed.

(** Trades on pool 13 with its own accounts go through; with a vault of pool 12, with a vault the trader
    made, with another mint, or paying from an account of another mint they do not. *)
Example C61_case :
  let good := buy pool13 7 (VaultA 13 pool13) (VaultA 11 pool13) 13 (Ext 501) (Ext 503) 2000000000 1700000040 in
  history market /\ typed good /\ ok (ix market good) = true
  /\ (exists o, runs market good = Some (pool13, o)) /\ spender good = Some 500
  /\ ok (ix market (buy pool13 7 (VaultA 13 pool13) (VaultA 11 pool12) 13 (Ext 501) (Ext 503) 2000000000 1700000040)) = false
  /\ ok (ix market (buy pool13 7 (VaultA 13 pool13) (Ext 504) 13 (Ext 501) (Ext 503) 2000000000 1700000040)) = false
  /\ ok (ix market (buy pool13 7 (VaultA 12 pool12) (VaultA 11 pool13) 12 (Ext 501) (Ext 502) 2000000000 1700000040)) = false
  /\ ok (ix market (buy pool13 7 (VaultA 13 pool13) (VaultA 11 pool13) 12 (Ext 501) (Ext 503) 2000000000 1700000040)) = false
  /\ ok (ix market (buy pool13 7 (VaultA 13 pool13) (VaultA 11 pool13) 13 (Ext 502) (Ext 503) 1000 1700000040)) = false
  /\ ok (ix market (buy pool13 8 (VaultA 13 pool13) (VaultA 11 pool13) 13 (Ext 501) (Ext 503) 2000000000 1700000040)) = false.
Proof.
  split; [exact market_history|]. split; [exact I|]. split; [vm_compute; reflexivity|].
  split; [eexists; vm_compute; reflexivity|]. vm_compute. repeat split; reflexivity.
Qed.

(** The operator can send protocol fees to the treasury only. *)
Example C62_case :
  let claim ta tb := IClaimProtocol pool12 7 (VaultA 12 pool12) (VaultA 11 pool12) 12 11 ta tb 88 88 U64_MAX U64_MAX in
  history market
  /\ (do b <- ix market (claim (Ext 502) (AtaA (Ext 66) 11)) ;; Ok (0 <? balance b (AtaA (Ext 66) 11))) = Ok true
  /\ ok (ix market (claim (Ext 502) (Ext 501))) = false.
Proof. split; [exact market_history|]. vm_compute. repeat split; reflexivity. Qed.

(** A trade from an account into itself conserves too: the account is both the payer and the referrer. *)
Example C63_case :
  let i := ISwap pool13 7 (VaultA 13 pool13) (VaultA 11 pool13) 13 11 (Ext 501) (Ext 503) (Some (Ext 501)) 500 1
             2000000000 0 1080 1700000040 plain_view in
  let l := [pool13; Ext 501; Ext 503; Ext 504; VaultA 11 pool12; VaultA 11 pool13; VaultA 13 pool13] in
  history market /\ stays_inside i /\ NoDup l
  /\ (do b <- ix market i ;; Ok (total b 11 l, total b 13 l, 298000000000 - 2000000000 <? balance b (Ext 501)))
     = Ok (300000000005, 200000000000000, true)
  /\ total market 11 l = 300000000005 /\ total market 13 l = 200000000000000.
Proof.
  split; [exact market_history|]. split; [exact I|]. split.
  - repeat (constructor; [simpl; intuition discriminate|]). constructor.
  - vm_compute. repeat split; reflexivity.
Qed.

Print Assumptions C60_pools_follow_the_model.
Print Assumptions C60_pools_are_solvent.
Print Assumptions C60_pools_are_separate.
Print Assumptions C60_pool_keys_are_final.
Print Assumptions C60_instructions_follow_the_model.
Print Assumptions C61_other_pools_untouched.
Print Assumptions C61_who_can_lose_tokens.
Print Assumptions C61_configs_are_final.
Print Assumptions C62_protocol_fees_to_treasury.
Print Assumptions C62_zapped_fees_to_operator.
Print Assumptions C62_leftover_to_receiver.
Print Assumptions C62_lp_tokens_to_owner.
Print Assumptions C63_tokens_add_up.
Print Assumptions C63_few_accounts_change.
Print Assumptions C63_trades_and_claims_conserve.
