(** * What stays true of all accounts together *)
From Coq Require Import ZArith List Bool Lia ZifyBool.
From Verif Require Import Base MathModel CurveModel FeeModel ConfigModel PoolModel TxModel SystemModel
  Lib Spec InvProofs InvReach Frame AcctModel AcctSim.
Import ListNotations.
Open Scope Z_scope.

(** Integer arguments fit their Rust types. *)
Definition typed (i : instr) : Prop :=
  match i with
  | ICreateConfig _ q _ _ now _ _ _ => params_typed q /\ u64ok now
  | IInitPool _ _ _ _ _ _ slot now => u64ok slot /\ u64ok now
  | _ => True
  end.

Definition set_lamports (p : poolacct) (n : Z) : poolacct :=
  mkPoolAcct (pa_pool p) (pa_config p) (pa_bmint p) (pa_bvault p) (pa_qvault p) n.

(** ** The invariant *)

(** Two worlds that agree on everything the account model keeps. *)
Record agree (v w : world) : Prop := {
  ag_key : w_key w = w_key v; ag_config : w_config w = w_config v; ag_pool : w_pool w = w_pool v;
  ag_bvault : w_bvault w = w_bvault v; ag_qvault : w_qvault w = w_qvault v;
  ag_lamports : w_lamports w = w_lamports v; ag_meta : w_meta w = w_meta v; ag_lp : w_lp w <= w_lp v;
  ag_admins : w_admins w = w_admins v; ag_operators : w_operators w = w_operators v }.

Lemma agree_sim v w : agree v w -> w_log v = [] -> sim (w_log w) v w.
Proof.
  intros [A B C D E F G H J K] L. destruct v, w. simpl in *. subst.
  rewrite <- (app_nil_r w_log0) at 2. constructor. exact H.
Qed.
Lemma sim_agree l v w : sim l v w -> agree v w.
Proof. intros []. constructor; auto. Qed.

Definition pool_ok (b : bank) (a : addr) (p : poolacct) : Prop :=
  exists c nb nq w,
    b_acc b (Ext (pa_config p)) = Some (AConfig c)
    /\ a = PoolA (pa_config p) (Z.max (pa_bmint p) (c_quote_mint c)) (Z.min (pa_bmint p) (c_quote_mint c))
    /\ pa_bvault p = VaultA (pa_bmint p) a /\ pa_qvault p = VaultA (c_quote_mint c) a
    /\ pa_bmint p <> c_quote_mint c
    /\ b_acc b (pa_bvault p) = Some (ATok (pa_bmint p) Auth nb)
    /\ b_acc b (pa_qvault p) = Some (ATok (c_quote_mint c) Auth nq)
    /\ reachable w /\ agree (loaded b a p c nb nq (meta_at b a) (lp_at b a)) w.

Record binv (b : bank) : Prop := {
  bi_config : forall y c, b_acc b y = Some (AConfig c) -> created c;
  bi_pool : forall a p, b_acc b a = Some (APool p) -> pool_ok b a p;
  bi_meta : forall x m vp l, b_acc b x = Some (AMeta m vp l) ->
     x = MetaA vp /\ (exists p, b_acc b vp = Some (APool p))
     /\ forall lm, l = Some lm -> exists n, b_acc b (AtaA Auth lm) = Some (ATok lm Auth n);
  bi_lp : forall x x' m m' vp vp' lm,
     b_acc b x = Some (AMeta m vp (Some lm)) -> b_acc b x' = Some (AMeta m' vp' (Some lm)) -> x = x'
}.

Lemma binv_genesis ad t : binv (genesis ad t).
Proof. constructor; discriminate. Qed.

(** ** Growth: what deposits and the moves of outsiders can do *)
Definition free (s : option Z) (o : addr) : bool :=
  match o, s with Ext k, Some s => k =? s | _, _ => false end.
(** [s] is the caller whose token accounts may be spent from. *)
Definition agrow (s : option Z) (x x' : option acct) : Prop :=
  match x with
  | None => match x' with
            | None | Some AMint | Some (ATok _ _ _) => True
            | Some (AConfig c) => created c
            | _ => False
            end
  | Some (APool p) => exists n, pa_lamports p <= n /\ x' = Some (APool (set_lamports p n))
  | Some (ATok m o n) =>
    if free s o then exists o' n', x' = Some (ATok m o' n')
    else exists n', n <= n' /\ (n' = n \/ n' <= U64_MAX) /\ x' = Some (ATok m o n')
  | Some y => x' = Some y
  end.
Record grows (s : option Z) (b b' : bank) : Prop := {
  gr_admins : b_admins b' = b_admins b; gr_ops : b_ops b' = b_ops b; gr_tr : b_treasury b' = b_treasury b;
  gr_acc : forall y, agrow s (b_acc b y) (b_acc b' y) }.

Lemma agrow_refl s x : agrow s x x.
Proof.
  destruct x as [[| |p|m o n|]|]; simpl; auto.
  - exists (pa_lamports p). split; [lia|]. destruct p; reflexivity.
  - destruct (free s o); eauto; exists n; repeat split; auto; lia.
Qed.
Lemma grows_refl s b : grows s b b.
Proof. constructor; auto. intros. apply agrow_refl. Qed.

Lemma put_same b a x : b_acc (put b a x) a = Some x.
Proof. unfold put. simpl. destruct (addr_dec a a); congruence. Qed.
Lemma put_other b a x y : a <> y -> b_acc (put b a x) y = b_acc b y.
Proof. intros N. unfold put. simpl. destruct (addr_dec a y); congruence. Qed.

Lemma grows_put s b a x : agrow s (b_acc b a) (Some x) -> grows s b (put b a x).
Proof.
  intros A. constructor; auto. intros y. destruct (addr_dec a y) as [<-|N].
  - rewrite put_same. exact A.
  - rewrite put_other by assumption. apply agrow_refl.
Qed.

Lemma load_tok_ok b a m o n : load_tok b a = Ok (m, o, n) -> b_acc b a = Some (ATok m o n).
Proof. unfold load_tok. destruct (b_acc b a) as [[]|]; try discriminate. intros E. apply Ok_inj in E. congruence. Qed.
Lemma load_pool_ok b a p : load_pool b a = Ok p -> b_acc b a = Some (APool p).
Proof. unfold load_pool. destruct (b_acc b a) as [[]|]; try discriminate. intros E. apply Ok_inj in E. congruence. Qed.
Lemma load_config_ok b a p : load_config b a = Ok p -> b_acc b (Ext a) = Some (AConfig p).
Proof. unfold load_config. destruct (b_acc b (Ext a)) as [[]|]; try discriminate. intros E. apply Ok_inj in E. congruence. Qed.
Lemma load_meta_ok b a m v l : load_meta b a = Ok (m, v, l) -> b_acc b a = Some (AMeta m v l).
Proof. unfold load_meta. destruct (b_acc b a) as [[]|]; try discriminate. intros E. apply Ok_inj in E. congruence. Qed.
Lemma load_mint_ok b a u : load_mint b a = Ok u -> b_acc b (Ext a) = Some AMint.
Proof. unfold load_mint. destruct (b_acc b (Ext a)) as [[]|]; try discriminate. auto. Qed.
Lemma same_ok a b u : same a b = Ok u -> a = b.
Proof. unfold same, addr_eqb. destruct (addr_dec a b); [auto|discriminate]. Qed.
Lemma samek_ok a b u : samek a b = Ok u -> a = b.
Proof. unfold samek. intros H. apply require_ok in H. lia. Qed.
Lemma has_mint_ok b a m u : has_mint b a m = Ok u -> exists o n, b_acc b a = Some (ATok m o n).
Proof.
  unfold has_mint. intros H. apply bind_ok in H. destruct H as ([[m' o] n] & L & H).
  apply load_tok_ok in L. apply samek_ok in H. subst. eauto.
Qed.
Lemma is_ata_ok b a o m u : is_ata b a o m = Ok u ->
  a = AtaA o m /\ exists n, b_acc b a = Some (ATok m o n).
Proof.
  unfold is_ata. intros H. apply bind_ok in H. destruct H as (? & S & H). apply same_ok in S.
  apply bind_ok in H. destruct H as ([[m' o'] n] & L & H). apply load_tok_ok in L.
  apply bind_ok in H. destruct H as (? & E & H). apply samek_ok in E. apply same_ok in H. subst. eauto.
Qed.
Lemma unused_ok b a : unused b a = true -> b_acc b a = None.
Proof. unfold unused. destruct (b_acc b a); [discriminate|auto]. Qed.

Lemma u64b_bounds n : u64b n = true -> 0 <= n <= U64_MAX.
Proof. unfold u64b. lia. Qed.

Lemma credit_ok b a m n b' : credit b a m n = Ok b' ->
  exists o x, b_acc b a = Some (ATok m o x) /\ 0 <= n <= U64_MAX /\ x + n <= U64_MAX
    /\ b' = put b a (ATok m o (x + n)).
Proof.
  unfold credit. intros H. apply bind_ok in H. destruct H as ([[m' o] x] & L & H). apply load_tok_ok in L.
  apply bind_ok in H. destruct H as (? & E & H). apply samek_ok in E. subst m'.
  apply bind_ok in H. destruct H as (? & U & H). apply require_ok in U. apply u64b_bounds in U.
  apply bind_ok in H. destruct H as (y & S & H). apply sadd_ok in S. destruct S as (-> & S).
  apply Ok_inj in H. subst b'. exists o, x. auto.
Qed.
Lemma credit_grows s b a m n b' : credit b a m n = Ok b' -> grows s b b'.
Proof.
  intros H. apply credit_ok in H. destruct H as (o & x & L & N & M & ->). apply grows_put. rewrite L. simpl.
  destruct (free s o); eauto; exists (x + n); repeat split; auto; lia.
Qed.
Lemma credit_sol_grows s b a n b' : credit_sol b a n = Ok b' -> grows s b b'.
Proof.
  unfold credit_sol. intros H. apply bind_ok in H. destruct H as (? & U & H). apply require_ok in U.
  apply u64b_bounds in U.
  destruct (b_acc b a) as [[]|] eqn:L; apply Ok_inj in H; subst b'; try apply grows_refl.
  apply grows_put. rewrite L. simpl. exists (pa_lamports p + n). split; [lia|reflexivity].
Qed.
Lemma debit_ok b a m s n b' : debit b a m s n = Ok b' ->
  exists x, b_acc b a = Some (ATok m (Ext s) x) /\ n <= x /\ b' = put b a (ATok m (Ext s) (x - n)).
Proof.
  unfold debit. intros H. apply bind_ok in H. destruct H as ([[m' o] x] & L & H). apply load_tok_ok in L.
  apply bind_ok in H. destruct H as (? & E & H). apply samek_ok in E. subst m'.
  apply bind_ok in H. destruct H as (? & E & H). apply same_ok in E. subst o.
  apply bind_ok in H. destruct H as (? & U & H). apply require_ok in U.
  apply Ok_inj in H. subst b'. exists x. repeat split; auto. lia.
Qed.
Lemma debit_grows b a m s n b' : debit b a m s n = Ok b' -> grows (Some s) b b'.
Proof.
  intros H. apply debit_ok in H. destruct H as (x & L & _ & ->). apply grows_put. rewrite L. simpl.
  rewrite Z.eqb_refl. eauto.
Qed.

Lemma agrow_trans s x y z : agrow s x y -> agrow s y z -> agrow s x z.
Proof.
  destruct x as [[| |p|m o n|]|]; simpl.
  - intros ->. auto.
  - intros ->. auto.
  - intros (n & L & ->). simpl. intros (n' & L' & ->). exists n'. split; [lia|reflexivity].
  - destruct (free s o) eqn:F.
    + intros (o' & n' & ->). simpl. destruct (free s o'); [auto|].
      intros (n2 & _ & _ & ->). eauto.
    + intros (n' & A & B & ->). simpl. rewrite F. intros (n2 & A2 & B2 & ->). exists n2. repeat split; lia.
  - intros ->. auto.
  - destruct y as [[| |p|m o n|]|]; simpl; try tauto.
    + intros _ ->. exact I.
    + intros C ->. exact C.
    + intros _. destruct (free s o); [intros (o' & n' & ->)|intros (n2 & _ & _ & ->)]; exact I.
Qed.
Lemma grows_trans s a b c : grows s a b -> grows s b c -> grows s a c.
Proof.
  intros [A1 A2 A3 A4] [B1 B2 B3 B4]. constructor; try congruence.
  intros y. eapply agrow_trans; eauto.
Qed.

Lemma deliver_grows s mo ts : forall b ds b', deliver b mo ts ds = Ok b' -> grows s b b'.
Proof.
  induction ts as [|t ts IH]; intros b ds b' H; simpl in H.
  - apply Ok_inj in H. subst. apply grows_refl.
  - destruct (leaves t); [|eapply IH; eauto].
    destruct (take_dst (t_token t) ds) as [[a ds']|]; [|discriminate H].
    apply bind_ok in H. destruct H as (b1 & C & H). eapply grows_trans; [|eapply IH; eauto].
    destruct (t_token t); try (eapply credit_grows; eassumption). eapply credit_sol_grows; eassumption.
Qed.

(** Growth is matched by donations. *)
Lemma donate_base_n d : forall v w, reachable w -> agree v w -> w_bvault v + Z.of_nat d <= U64_MAX ->
  exists w', reachable w' /\ agree (set_w_bvault v (w_bvault v + Z.of_nat d)) w'.
Proof.
  induction d as [|d IH]; intros v w R S L.
  - exists w. split; [exact R|]. destruct S. constructor; simpl; auto; lia.
  - assert (E : exec w (ODonateBase 0 1)
               = Ok (log (set_w_bvault w (w_bvault w + 1)) (mkTransfer TBase (PKey 0) PPool 1))).
    { unfold exec. cbn [args_ok]. change (u64b 1) with true. cbn [bind require]. unfold recv_base, sadd.
      rewrite (ag_bvault _ _ S). replace (w_bvault v + 1 <=? U64_MAX) with true by lia. reflexivity. }
    apply (reachable_exec _ _ _ R) in E.
    destruct (IH (set_w_bvault v (w_bvault v + 1)) _ E) as (w' & Rw & Sw).
    { destruct S. constructor; simpl; auto. congruence. }
    { simpl. lia. }
    exists w'. split; [exact Rw|]. destruct Sw. constructor; simpl in *; auto. lia.
Qed.
Lemma donate_quote_n d : forall v w, reachable w -> agree v w -> w_qvault v + Z.of_nat d <= U64_MAX ->
  exists w', reachable w' /\ agree (set_w_qvault v (w_qvault v + Z.of_nat d)) w'.
Proof.
  induction d as [|d IH]; intros v w R S L.
  - exists w. split; [exact R|]. destruct S. constructor; simpl; auto; lia.
  - assert (E : exec w (ODonateQuote 0 1)
               = Ok (log (set_w_qvault w (w_qvault w + 1)) (mkTransfer TQuote (PKey 0) PPool 1))).
    { unfold exec. cbn [args_ok]. change (u64b 1) with true. cbn [bind require]. unfold recv_quote, sadd.
      rewrite (ag_qvault _ _ S). replace (w_qvault v + 1 <=? U64_MAX) with true by lia. reflexivity. }
    apply (reachable_exec _ _ _ R) in E.
    destruct (IH (set_w_qvault v (w_qvault v + 1)) _ E) as (w' & Rw & Sw).
    { destruct S. constructor; simpl; auto. congruence. }
    { simpl. lia. }
    exists w'. split; [exact Rw|]. destruct Sw. constructor; simpl in *; auto. lia.
Qed.
Lemma donate_sol_n d : forall v w, reachable w -> agree v w ->
  exists w', reachable w' /\ agree (set_w_lamports v (w_lamports v + Z.of_nat d)) w'.
Proof.
  induction d as [|d IH]; intros v w R S.
  - exists w. split; [exact R|]. destruct S. constructor; simpl; auto; lia.
  - assert (E : exec w (ODonateSol 0 1)
               = Ok (log (set_w_lamports w (w_lamports w + 1)) (mkTransfer TSol (PKey 0) PPool 1))).
    { unfold exec. cbn [args_ok]. change (u64b 1) with true. cbn [bind require]. reflexivity. }
    apply (reachable_exec _ _ _ R) in E.
    destruct (IH (set_w_lamports v (w_lamports v + 1)) _ E) as (w' & Rw & Sw).
    { destruct S. constructor; simpl; auto. congruence. }
    exists w'. split; [exact Rw|]. destruct Sw. constructor; simpl in *; auto. lia.
Qed.

Lemma grow_agree v w nb nq la lp : reachable w -> agree v w ->
  w_bvault v <= nb -> (nb = w_bvault v \/ nb <= U64_MAX) ->
  w_qvault v <= nq -> (nq = w_qvault v \/ nq <= U64_MAX) ->
  w_lamports v <= la -> w_lp v <= lp ->
  exists w', reachable w'
    /\ agree (set_w_lp (set_w_lamports (set_w_qvault (set_w_bvault v nb) nq) la) lp) w'.
Proof.
  intros R S B B' Q Q' L P.
  assert (X : exists w1, reachable w1 /\ agree (set_w_bvault v nb) w1).
  { destruct B' as [->|B'].
    - exists w. split; [exact R|]. destruct S. constructor; simpl; auto.
    - destruct (donate_base_n (Z.to_nat (nb - w_bvault v)) v w R S) as (w1 & R1 & S1).
      { rewrite Z2Nat.id; lia. }
      exists w1. split; [exact R1|]. rewrite Z2Nat.id in S1 by lia.
      replace (w_bvault v + (nb - w_bvault v)) with nb in S1 by lia. exact S1. }
  destruct X as (w1 & R1 & S1).
  assert (X : exists w2, reachable w2 /\ agree (set_w_qvault (set_w_bvault v nb) nq) w2).
  { destruct Q' as [->|Q'].
    - exists w1. split; [exact R1|]. destruct S1. constructor; simpl in *; auto.
    - destruct (donate_quote_n (Z.to_nat (nq - w_qvault v)) _ w1 R1 S1) as (w2 & R2 & S2).
      { simpl. rewrite Z2Nat.id; lia. }
      exists w2. split; [exact R2|]. rewrite Z2Nat.id in S2 by lia. cbn [w_qvault set_w_bvault] in S2.
      replace (w_qvault v + (nq - w_qvault v)) with nq in S2 by lia. exact S2. }
  destruct X as (w2 & R2 & S2).
  destruct (donate_sol_n (Z.to_nat (la - w_lamports v)) _ w2 R2 S2) as (w3 & R3 & S3).
  exists w3. split; [exact R3|]. rewrite Z2Nat.id in S3 by lia.
  destruct S3. constructor; simpl in *; auto; lia.
Qed.

(** ** Growth keeps the invariant *)
Lemma grows_config s b b' y c : grows s b b' -> b_acc b y = Some (AConfig c) -> b_acc b' y = Some (AConfig c).
Proof. intros G E. pose proof (gr_acc _ _ _ G y) as A. rewrite E in A. exact A. Qed.
Lemma grows_auth s b b' y m n : grows s b b' -> b_acc b y = Some (ATok m Auth n) ->
  exists n', n <= n' /\ (n' = n \/ n' <= U64_MAX) /\ b_acc b' y = Some (ATok m Auth n').
Proof. intros G E. pose proof (gr_acc _ _ _ G y) as A. rewrite E in A. exact A. Qed.
Lemma grows_pool s b b' y p : grows s b b' -> b_acc b y = Some (APool p) ->
  exists n, pa_lamports p <= n /\ b_acc b' y = Some (APool (set_lamports p n)).
Proof. intros G E. pose proof (gr_acc _ _ _ G y) as A. rewrite E in A. exact A. Qed.
Lemma grows_pool_back s b b' y p : grows s b b' -> b_acc b' y = Some (APool p) ->
  exists p0, b_acc b y = Some (APool p0) /\ p = set_lamports p0 (pa_lamports p) /\ pa_lamports p0 <= pa_lamports p.
Proof.
  intros G E. pose proof (gr_acc _ _ _ G y) as A. rewrite E in A.
  destruct (b_acc b y) as [[| |p0|m o n|]|]; simpl in A; try discriminate A; try contradiction.
  - destruct A as (n & L & A). injection A as ->. exists p0. repeat split; auto.
  - destruct (free s o); repeat match goal with H : exists _, _ |- _ => destruct H end;
    repeat match goal with H : _ /\ _ |- _ => destruct H end; congruence.
Qed.
Lemma grows_meta s b b' y m v l : grows s b b' ->
  (b_acc b y = Some (AMeta m v l) <-> b_acc b' y = Some (AMeta m v l)).
Proof.
  intros G. pose proof (gr_acc _ _ _ G y) as A. split; intros E; rewrite E in A; [exact A|].
  destruct (b_acc b y) as [[| |p0|m' o n|]|]; simpl in A; try discriminate A; try contradiction.
  - destruct A as (? & ? & A). discriminate A.
  - destruct (free s o); repeat match goal with H : exists _, _ |- _ => destruct H end;
    repeat match goal with H : _ /\ _ |- _ => destruct H end; congruence.
  - injection A as -> -> ->. reflexivity.
Qed.
Lemma grows_meta_at s b b' a : grows s b b' -> meta_at b' a = meta_at b a.
Proof.
  intros G. unfold meta_at. destruct (b_acc b (MetaA a)) as [[| | | |m v l]|] eqn:E;
  destruct (b_acc b' (MetaA a)) as [[| | | |m' v' l']|] eqn:E'; try reflexivity;
  try (apply (grows_meta _ _ _ _ _ _ _ G) in E; congruence);
  try (apply (grows_meta _ _ _ _ _ _ _ G) in E'; congruence).
Qed.
Lemma grows_lp_at s b b' a : binv b -> grows s b b' -> lp_at b a <= lp_at b' a.
Proof.
  intros I G. unfold lp_at. destruct (b_acc b (MetaA a)) as [[| | | |m v l]|] eqn:E.
  1-4,6: destruct (b_acc b' (MetaA a)) as [[| | | |m' v' l']|] eqn:E'; try lia;
         apply (grows_meta _ _ _ _ _ _ _ G) in E'; congruence.
  pose proof E as E'. apply (grows_meta _ _ _ _ _ _ _ G) in E'. rewrite E'. destruct l as [lm|]; [|lia].
  destruct (bi_meta _ I _ _ _ _ E) as (_ & _ & L). destruct (L lm eq_refl) as (n & T). rewrite T.
  destruct (grows_auth _ _ _ _ _ _ G T) as (n' & LE & _ & T'). rewrite T'. exact LE.
Qed.

Lemma grows_binv s b b' : binv b -> grows s b b' -> binv b'.
Proof.
  intros I G. constructor.
  - intros y c E. pose proof (gr_acc _ _ _ G y) as A. rewrite E in A.
    destruct (b_acc b y) as [[|c'|p0|m o n|]|] eqn:E0; simpl in A; try discriminate A; try contradiction.
    + injection A as ->. eapply bi_config; eauto.
    + destruct A as (? & ? & A). discriminate A.
    + destruct (free s o); repeat match goal with H : exists _, _ |- _ => destruct H end;
      repeat match goal with H : _ /\ _ |- _ => destruct H end; congruence.
    + exact A.
  - intros a p E. destruct (grows_pool_back _ _ _ _ _ G E) as (p0 & E0 & EP & LE).
    destruct (bi_pool _ I _ _ E0) as (c & nb & nq & w & C & A & BV & QV & NE & TB & TQ & R & S).
    destruct (grows_auth _ _ _ _ _ _ G TB) as (nb' & B1 & B2 & TB').
    destruct (grows_auth _ _ _ _ _ _ G TQ) as (nq' & Q1 & Q2 & TQ').
    apply (grows_config _ _ _ _ _ G) in C.
    destruct (grow_agree _ w nb' nq' (pa_lamports p) (lp_at b' a) R S B1 B2 Q1 Q2 LE (grows_lp_at _ _ _ a I G))
      as (w' & R' & S').
    rewrite EP. exists c, nb', nq', w'. simpl. repeat (split; [assumption|]).
    unfold loaded in *. rewrite (grows_meta_at _ _ _ a G), (gr_admins _ _ _ G), (gr_ops _ _ _ G). exact S'.
  - intros x m vp l E. apply (grows_meta _ _ _ _ _ _ _ G) in E.
    destruct (bi_meta _ I _ _ _ _ E) as (X & (p & P) & L). split; [exact X|]. split.
    + destruct (grows_pool _ _ _ _ _ G P) as (n & _ & P'). eauto.
    + intros lm EL. destruct (L lm EL) as (n & T). destruct (grows_auth _ _ _ _ _ _ G T) as (n' & _ & _ & T').
      eauto.
  - intros x x' m m' vp vp' lm E E'. apply (grows_meta _ _ _ _ _ _ _ G) in E. apply (grows_meta _ _ _ _ _ _ _ G) in E'.
    eapply bi_lp; eauto.
Qed.

(** ** What a pool instruction leaves alone *)
Definition env (w w' : world) : Prop :=
  w_key w' = w_key w /\ w_config w' = w_config w /\ w_admins w' = w_admins w /\ w_operators w' = w_operators w
  /\ w_meta w' = w_meta w /\ w_lp w' = w_lp w.
Definition env0 (w w' : world) : Prop :=
  w_key w' = w_key w /\ w_config w' = w_config w /\ w_admins w' = w_admins w /\ w_operators w' = w_operators w.
Definition kept (w : world) (r : res world) : Prop := forall w', r = Ok w' -> env w w'.

Lemma kept_ok w w' : env w w' -> kept w (Ok w').
Proof. intros E x H. apply Ok_inj in H. congruence. Qed.
Lemma kept_err w e : kept w (Err e). Proof. intros x H. discriminate H. Qed.
Lemma kept_same {A} w (m : res A) f : (forall x, kept w (f x)) -> kept w (bind m f).
Proof. intros H. destruct m; simpl; [apply H|apply kept_err]. Qed.
Lemma kept_bind w r f : kept w r -> (forall a, env w a -> kept w (f a)) -> kept w (bind r f).
Proof. intros H K. destruct r; simpl; [apply K, H; reflexivity|apply kept_err]. Qed.
Lemma env_refl w : env w w. Proof. repeat split. Qed.
Lemma env_log w a t : env w a -> env w (log a t). Proof. intros (?&?&?&?&?&?). repeat split; assumption. Qed.
Lemma env_pool w a p : env w a -> env w (set_w_pool a p). Proof. intros (?&?&?&?&?&?). repeat split; assumption. Qed.
Lemma env_bvault w a p : env w a -> env w (set_w_bvault a p). Proof. intros (?&?&?&?&?&?). repeat split; assumption. Qed.
Lemma env_qvault w a p : env w a -> env w (set_w_qvault a p). Proof. intros (?&?&?&?&?&?). repeat split; assumption. Qed.
Lemma env_lamports w a p : env w a -> env w (set_w_lamports a p). Proof. intros (?&?&?&?&?&?). repeat split; assumption. Qed.
Lemma env_supply w a p : env w a -> env w (set_w_supply a p). Proof. intros (?&?&?&?&?&?). repeat split; assumption. Qed.
Lemma env_escrow w a p : env w a -> env w (set_w_escrow a p). Proof. intros (?&?&?&?&?&?). repeat split; assumption. Qed.
Lemma env_positions w a p : env w a -> env w (set_w_positions a p). Proof. intros (?&?&?&?&?&?). repeat split; assumption. Qed.
#[local] Hint Resolve env_refl env_log env_pool env_bvault env_qvault env_lamports env_supply env_escrow
  env_positions kept_ok kept_err : env.
Lemma kept_pay_base w a to n : env w a -> kept w (pay_base a to n).
Proof. intros. unfold pay_base. apply kept_same. eauto with env. Qed.
Lemma kept_pay_quote w a to n : env w a -> kept w (pay_quote a to n).
Proof. intros. unfold pay_quote. apply kept_same. eauto with env. Qed.
Lemma kept_recv_base w a to n : env w a -> kept w (recv_base a to n).
Proof. intros. unfold recv_base. apply kept_same. eauto with env. Qed.
Lemma kept_recv_quote w a to n : env w a -> kept w (recv_quote a to n).
Proof. intros. unfold recv_quote. apply kept_same. eauto with env. Qed.
Lemma kept_pay_lamports w a to n : env w a -> kept w (pay_lamports a to n).
Proof. intros. unfold pay_lamports. apply kept_same. eauto with env. Qed.
Lemma kept_burn_rest w a n : env w a -> kept w (burn_rest a n).
Proof.
  intros. unfold burn_rest. repeat (apply kept_same; intros). destruct (0 <? _); [|eauto with env].
  unfold burn_base. apply kept_same. eauto 6 with env.
Qed.
Lemma kept_finish w a n : env w a -> kept w (finish_curve a n).
Proof.
  intros. unfold finish_curve. cbv zeta. destruct (is_curve_complete _ _); [|eauto with env].
  repeat (apply kept_same; intros). eauto with env.
Qed.
Ltac kstep :=
  match goal with
  | |- kept _ (Err _) => apply kept_err
  | |- kept _ (Ok _) => apply kept_ok; eauto 8 with env
  | |- kept _ (bind (pay_base _ _ _) _) => eapply kept_bind; [apply kept_pay_base; eauto with env | intros]
  | |- kept _ (bind (pay_quote _ _ _) _) => eapply kept_bind; [apply kept_pay_quote; eauto with env | intros]
  | |- kept _ (bind (recv_base _ _ _) _) => eapply kept_bind; [apply kept_recv_base; eauto with env | intros]
  | |- kept _ (bind (recv_quote _ _ _) _) => eapply kept_bind; [apply kept_recv_quote; eauto with env | intros]
  | |- kept _ (bind (burn_rest _ _) _) => eapply kept_bind; [apply kept_burn_rest; eauto with env | intros]
  | |- kept _ (pay_base _ _ _) => apply kept_pay_base; eauto with env
  | |- kept _ (pay_quote _ _ _) => apply kept_pay_quote; eauto with env
  | |- kept _ (recv_base _ _ _) => apply kept_recv_base; eauto with env
  | |- kept _ (recv_quote _ _ _) => apply kept_recv_quote; eauto with env
  | |- kept _ (pay_lamports _ _ _) => apply kept_pay_lamports; eauto with env
  | |- kept ?w (@bind world world _ _) => eapply kept_bind
  | |- kept _ (bind _ _) => apply kept_same; intros
  | |- kept _ (if ?b then _ else _) => destruct b
  | |- kept _ (let '(_, _) := ?x in _) => destruct x
  | |- kept _ (match ?x with _ => _ end) => destruct x
  | |- forall _, _ => intros
  end.

Definition pool_op (o : op) : bool :=
  match o with
  | OCreateOperator _ _ _ | OCloseOperator _ _ | ODonateBase _ _ | ODonateQuote _ _ | ODonateSol _ _
  | OMint _ _ _ | OBurn _ _ => false
  | _ => true
  end.
Definition meta_op (o : op) : bool :=
  match o with OCreateMetadata | OMigrateV1 _ _ | OLockLp _ | OClaimLp _ => true | _ => false end.

Lemma exec_env w o w' : pool_op o = true -> meta_op o = false -> exec w o = Ok w' -> env w w'.
Proof.
  intros P M. revert w'. change (kept w (exec w o)). unfold exec. apply kept_same; intros _.
  destruct o; try discriminate P; try discriminate M.
  - rewrite do_swap_eq. cbv zeta. do 8 (apply kept_same; intros).
    eapply kept_bind; [|intros; apply kept_finish; assumption]. unfold swap_transfers. repeat kstep.
  - unfold claim_partner_fee. repeat kstep.
  - unfold claim_creator_fee. repeat kstep.
  - unfold claim_protocol_fee. repeat kstep.
  - unfold zap_protocol_fee. repeat kstep.
  - unfold withdraw_partner_surplus. cbv zeta. repeat kstep.
  - unfold withdraw_creator_surplus. cbv zeta. repeat kstep.
  - unfold withdraw_migration_fee. cbv zeta. repeat kstep.
  - unfold withdraw_leftover. cbv zeta. repeat kstep.
  - unfold claim_partner_creation_fee. cbv zeta. repeat kstep.
  - unfold claim_protocol_creation_fee. cbv zeta. repeat kstep.
  - unfold transfer_creator. cbv zeta. repeat kstep.
  - unfold create_locker. cbv zeta. repeat kstep.
  - unfold migrate_v2. cbv zeta. repeat kstep.
Qed.

Lemma exec_env0 w o w' : pool_op o = true -> exec w o = Ok w' -> env0 w w'.
Proof.
  intros P E. destruct (meta_op o) eqn:M.
  - unfold exec in E. apply bind_ok in E. destruct E as (u & _ & E).
    destruct o; try discriminate M.
    + unfold create_v1_metadata in E. apply bind_ok in E. destruct E as (? & _ & E).
      apply bind_ok in E. destruct E as (? & _ & E). apply Ok_inj in E. subst. repeat split.
    + unfold migrate_v1 in E. cbv zeta in E.
      apply bind_ok in E. destruct E as (? & _ & E).
      apply bind_ok in E. destruct E as (? & _ & E).
      apply bind_ok in E. destruct E as (m & _ & E).
      apply bind_ok in E. destruct E as ([[[fb fq] eb] eq] & _ & E).
      apply bind_ok in E. destruct E as (w1 & E1 & E). eapply kept_pay_base in E1; [|apply env_pool, env_refl].
      apply bind_ok in E. destruct E as (w2 & E2 & E). eapply kept_pay_quote in E2; [|exact E1].
      apply bind_ok in E. destruct E as (w3 & E3 & E). eapply kept_burn_rest in E3; [|apply env_pool; exact E2].
      apply bind_ok in E. destruct E as (? & _ & E).
      apply bind_ok in E. destruct E as ([[[? ?] ?] ?] & _ & E). apply Ok_inj in E. subst w'.
      destruct E3 as (?&?&?&?&_). repeat split; assumption.
    + unfold lock_lp in E. apply bind_ok in E. destruct E as (? & _ & E).
      apply bind_ok in E. destruct E as (? & _ & E). apply bind_ok in E. destruct E as ([m' n] & _ & E).
      unfold pay_lp in E. apply bind_ok in E. destruct E as (? & _ & E). apply Ok_inj in E. subst. repeat split.
    + unfold claim_lp in E. apply bind_ok in E. destruct E as (? & _ & E).
      apply bind_ok in E. destruct E as (? & _ & E). apply bind_ok in E. destruct E as ([m' n] & _ & E).
      unfold pay_lp in E. apply bind_ok in E. destruct E as (? & _ & E). apply Ok_inj in E. subst. repeat split.
  - destruct (exec_env _ _ _ P M E) as (?&?&?&?&_). repeat split; assumption.
Qed.

(** ** Changes confined to the accounts of one pool *)
Definition ours (b : bank) (a : addr) (lm : Z) : Prop :=
  b_acc b (AtaA Auth lm) = None \/ exists m, b_acc b (MetaA a) = Some (AMeta m a (Some lm)).
Definition touched (b b' : bank) (a : addr) (p : poolacct) (y : addr) : Prop :=
  y = a \/ y = pa_bvault p \/ y = pa_qvault p \/ y = MetaA a
  \/ (exists lm n, y = AtaA Auth lm /\ ours b a lm /\ b_acc b' y = Some (ATok lm Auth n))
  \/ (b_acc b y = None /\ b_acc b' y = Some AMint).

Lemma local_binv b b' a p p' c nb nq w :
  binv b -> b_acc b a = Some (APool p) -> b_acc b' a = Some (APool p') ->
  pa_config p' = pa_config p -> pa_bmint p' = pa_bmint p -> pa_bvault p' = pa_bvault p ->
  pa_qvault p' = pa_qvault p ->
  b_admins b' = b_admins b -> b_ops b' = b_ops b ->
  b_acc b (Ext (pa_config p)) = Some (AConfig c) ->
  b_acc b' (pa_bvault p) = Some (ATok (pa_bmint p) Auth nb) ->
  b_acc b' (pa_qvault p) = Some (ATok (c_quote_mint c) Auth nq) ->
  (forall y, b_acc b' y = b_acc b y \/ touched b b' a p y) ->
  (b_acc b' (MetaA a) = b_acc b (MetaA a)
   \/ exists m l, b_acc b' (MetaA a) = Some (AMeta m a l)
        /\ forall lm, l = Some lm -> ours b a lm /\ exists n, b_acc b' (AtaA Auth lm) = Some (ATok lm Auth n)) ->
  reachable w -> agree (loaded b' a p' c nb nq (meta_at b' a) (lp_at b' a)) w ->
  binv b'.
Proof.
  intros I P P' K1 K2 K3 K4 AD OP C TB TQ T M R S.
  destruct (bi_pool _ I _ _ P) as (c0 & nb0 & nq0 & w0 & C0 & A & BV & QV & NE & TB0 & TQ0 & _ & _).
  assert (c0 = c) by congruence. subst c0.
  (* accounts of the other kinds *)
  assert (EX : forall k x, b_acc b (Ext k) = Some x -> b_acc b' (Ext k) = Some x).
  { intros k x E. destruct (T (Ext k)) as [->|[X|[X|[X|[X|[X|X]]]]]]; [exact E|..].
    - congruence.
    - congruence.
    - congruence.
    - discriminate X.
    - destruct X as (? & ? & X & _). discriminate X.
    - destruct X. congruence. }
  assert (VA : forall m a0 x, a0 <> a -> b_acc b (VaultA m a0) = Some x -> b_acc b' (VaultA m a0) = Some x).
  { intros m a0 x N E. destruct (T (VaultA m a0)) as [->|[X|[X|[X|[X|[X|X]]]]]]; [exact E|..].
    - congruence.
    - congruence.
    - congruence.
    - discriminate X.
    - destruct X as (? & ? & X & _). discriminate X.
    - destruct X. congruence. }
  assert (MT : forall x m v l, b_acc b' x = Some (AMeta m v l) -> x = MetaA a \/ b_acc b x = Some (AMeta m v l)).
  { intros x m v l E. destruct (T x) as [X|[X|[X|[X|[X|[X|X]]]]]].
    - right. congruence.
    - subst x. congruence.
    - subst x. congruence.
    - subst x. congruence.
    - left. exact X.
    - destruct X as (? & ? & _ & _ & X). congruence.
    - destruct X. congruence. }
  assert (LT : forall lm n, b_acc b (AtaA Auth lm) = Some (ATok lm Auth n) ->
             exists n', b_acc b' (AtaA Auth lm) = Some (ATok lm Auth n')).
  { intros lm n E. destruct (T (AtaA Auth lm)) as [X|[X|[X|[X|[X|[X|X]]]]]].
    - exists n. congruence.
    - congruence.
    - congruence.
    - congruence.
    - discriminate X.
    - destruct X as (lm' & n' & X & _ & Y). injection X as ->. exists n'. exact Y.
    - destruct X. congruence. }
  constructor.
  - intros y c0 E. destruct (T y) as [X|[X|[X|[X|[X|[X|X]]]]]].
    + eapply bi_config; [exact I|]. rewrite <- X. exact E.
    + subst y. congruence.
    + subst y. congruence.
    + subst y. congruence.
    + subst y. destruct M as [M|(? & ? & M & _)]; [|congruence]. eapply bi_config; [exact I|]. rewrite <- M. exact E.
    + destruct X as (? & ? & _ & _ & X). congruence.
    + destruct X. congruence.
  - intros a0 p0 E. destruct (addr_dec a0 a) as [->|N].
    + assert (p0 = p') by congruence. subst p0. exists c, nb, nq, w.
      rewrite K1, K2, K3, K4. split; [apply EX; exact C|]. repeat (split; [assumption|]). exact S.
    + assert (E0 : b_acc b a0 = Some (APool p0)).
      { destruct (T a0) as [X|[X|[X|[X|[X|[X|X]]]]]].
        - congruence.
        - congruence.
        - subst a0. congruence.
        - subst a0. congruence.
        - subst a0. destruct M as [M|(? & ? & M & _)]; congruence.
        - destruct X as (? & ? & _ & _ & X). congruence.
        - destruct X. congruence. }
      destruct (bi_pool _ I _ _ E0) as (c1 & nb1 & nq1 & w1 & C1 & A1 & BV1 & QV1 & NE1 & TB1 & TQ1 & R1 & S1).
      exists c1, nb1, nq1, w1. split; [apply EX; exact C1|]. do 4 (split; [assumption|]).
      split; [rewrite BV1 in *; apply VA; assumption|]. split; [rewrite QV1 in *; apply VA; assumption|].
      split; [assumption|].
      assert (MA : b_acc b' (MetaA a0) = b_acc b (MetaA a0)
                   \/ b_acc b (MetaA a0) = None /\ b_acc b' (MetaA a0) = Some AMint).
      { destruct (T (MetaA a0)) as [X|[X|[X|[X|[X|[X|X]]]]]].
        - left. congruence.
        - exfalso. congruence.
        - exfalso. congruence.
        - exfalso. congruence.
        - exfalso. congruence.
        - exfalso. destruct X as (? & ? & X & _). discriminate X.
        - right. exact X. }
      assert (meta_at b' a0 = meta_at b a0 /\ lp_at b' a0 = lp_at b a0) as (-> & ->).
      { unfold meta_at, lp_at. destruct MA as [->|(-> & ->)]; [|split; reflexivity].
        split; [reflexivity|]. destruct (b_acc b (MetaA a0)) as [[| | | |m v l]|] eqn:EM; try reflexivity.
        destruct l as [lm|]; [|reflexivity].
        destruct (bi_meta _ I _ _ _ _ EM) as (_ & _ & L). destruct (L lm eq_refl) as (n & TL).
        destruct (T (AtaA Auth lm)) as [->|[X|[X|[X|[X|[X|X]]]]]]; [reflexivity|..].
        - exfalso. congruence.
        - exfalso. congruence.
        - exfalso. congruence.
        - exfalso. discriminate X.
        - exfalso. destruct X as (lm' & n' & X & O & _). injection X as <-.
          destruct O as [O|(m' & O)]; [congruence|]. pose proof (bi_lp _ I _ _ _ _ _ _ _ EM O) as Y. congruence.
        - exfalso. destruct X. congruence. }
      unfold loaded in *. rewrite AD, OP. exact S1.
  - intros x m vp l E.
    assert (PV : forall v, (exists p0, b_acc b v = Some (APool p0)) -> exists p0, b_acc b' v = Some (APool p0)).
    { intros v (p0 & V). destruct (T v) as [X|[X|[X|[X|[X|[X|X]]]]]].
      - exists p0. congruence.
      - subst v. eauto.
      - exfalso. congruence.
      - exfalso. congruence.
      - subst v. destruct M as [M|(m1 & l1 & M & _)]; [exists p0; congruence|].
        exfalso. destruct (bi_pool _ I _ _ V) as (? & ? & ? & ? & _ & X & _). discriminate X.
      - destruct X as (lm & ? & -> & _). exfalso.
        destruct (bi_pool _ I _ _ V) as (? & ? & ? & ? & _ & X & _). discriminate X.
      - destruct X. congruence. }
    destruct (MT _ _ _ _ E) as [->|E0].
    + destruct M as [M|(m1 & l1 & M & L)].
      * rewrite M in E. destruct (bi_meta _ I _ _ _ _ E) as (X & Y & L). split; [exact X|]. split; [apply PV; exact Y|].
        intros lm EL. destruct (L lm EL) as (n & TL). eapply LT; eauto.
      * rewrite M in E. injection E as <- <- <-. split; [reflexivity|]. split; [eauto|].
        intros lm EL. apply L. exact EL.
    + destruct (bi_meta _ I _ _ _ _ E0) as (X & Y & L). split; [exact X|]. split; [apply PV; exact Y|].
      intros lm EL. destruct (L lm EL) as (n & TL). eapply LT; eauto.
  - intros x x' m m' vp vp' lm E E'.
    assert (G : forall y m0 v0, b_acc b' y = Some (AMeta m0 v0 (Some lm)) ->
               y = MetaA a /\ ours b a lm \/ b_acc b y = Some (AMeta m0 v0 (Some lm))).
    { intros y m0 v0 H. destruct (MT _ _ _ _ H) as [->|H0]; [|right; exact H0].
      destruct M as [M|(m1 & l1 & M & L)]; [right; congruence|]. left. split; [reflexivity|].
      rewrite M in H. injection H as <- <- ->. apply L. reflexivity. }
    assert (X : forall y m0 v0, b_acc b y = Some (AMeta m0 v0 (Some lm)) -> ours b a lm -> y = MetaA a).
    { intros y m0 v0 H O. destruct (bi_meta _ I _ _ _ _ H) as (_ & _ & L). destruct (L lm eq_refl) as (n & TL).
      destruct O as [O|(m1 & O)]; [congruence|]. eapply bi_lp; eauto. }
    destruct (G _ _ _ E) as [(-> & O)|H]; destruct (G _ _ _ E') as [(-> & O')|H'].
    + reflexivity.
    + symmetry. eapply X; eauto.
    + eapply X; eauto.
    + eapply bi_lp; eauto.
Qed.

(** ** Running a handler on the pool's own accounts *)
Lemma stored_acc b a p bv qv mb mq ob oq nb nq w :
  b_acc b bv = Some (ATok mb ob nb) -> b_acc b qv = Some (ATok mq oq nq) -> a <> bv -> a <> qv -> bv <> qv ->
  let b' := stored b a p bv qv w in
  b_admins b' = b_admins b /\ b_ops b' = b_ops b /\ b_treasury b' = b_treasury b
  /\ b_acc b' a = Some (APool (mkPoolAcct (w_pool w) (pa_config p) (pa_bmint p) (pa_bvault p) (pa_qvault p)
                                 (w_lamports w)))
  /\ b_acc b' bv = Some (ATok mb ob (w_bvault w)) /\ b_acc b' qv = Some (ATok mq oq (w_qvault w))
  /\ forall y, y <> a -> y <> bv -> y <> qv -> b_acc b' y = b_acc b y.
Proof.
  intros TB TQ N1 N2 N3 b'. subst b'. unfold stored. rewrite put_other, TB by assumption.
  rewrite put_other, put_other, TQ by assumption. repeat split.
  - rewrite put_other, put_other, put_same by congruence. reflexivity.
  - rewrite put_other, put_same by congruence. reflexivity.
  - rewrite put_same. reflexivity.
  - intros y Y1 Y2 Y3. rewrite !put_other by congruence. reflexivity.
Qed.

(** What a successful handler run means. [b1] is the bank after the writes. *)
Record ran (b : bank) (a : addr) (p : poolacct) (c : config) (o : op) (v w wa wa' : world) (b1 : bank) : Prop := {
  rn_pool : b_acc b a = Some (APool p);
  rn_config : b_acc b (Ext (pa_config p)) = Some (AConfig c);
  rn_addr : a = PoolA (pa_config p) (Z.max (pa_bmint p) (c_quote_mint c)) (Z.min (pa_bmint p) (c_quote_mint c));
  rn_bv : pa_bvault p = VaultA (pa_bmint p) a;
  rn_qv : pa_qvault p = VaultA (c_quote_mint c) a;
  rn_ne : pa_bmint p <> c_quote_mint c;
  rn_tb : b_acc b (pa_bvault p) = Some (ATok (pa_bmint p) Auth (w_bvault v));
  rn_tq : b_acc b (pa_qvault p) = Some (ATok (c_quote_mint c) Auth (w_qvault v));
  rn_view : v = loaded b a p c (w_bvault v) (w_qvault v) (meta_at b a) (lp_at b a);
  rn_reach : reachable wa;
  rn_agree : agree v wa;
  rn_exec : exec v o = Ok w;
  rn_exec' : exec wa o = Ok wa';
  rn_sim : sim (w_log wa) w wa';
  rn_bank : b1 = stored b a p (pa_bvault p) (pa_qvault p) w }.

Lemma run_on_ran b a p o cfg bv qv m lp w b1 :
  binv b -> b_acc b a = Some (APool p) -> pool_op o = true ->
  cfg = pa_config p -> bv = pa_bvault p -> qv = pa_qvault p -> m = meta_at b a -> lp = lp_at b a ->
  run_on b a cfg bv qv m lp o = Ok (w, b1) ->
  exists c v wa wa', ran b a p c o v w wa wa' b1.
Proof.
  intros I P O -> -> -> -> -> H. unfold run_on in H.
  apply bind_ok in H. destruct H as (p0 & L & H). apply load_pool_ok in L. assert (p0 = p) by congruence. subst p0.
  apply bind_ok in H. destruct H as (c & LC & H). apply load_config_ok in LC.
  apply bind_ok in H. destruct H as ([[mb ob] nb] & TB & H). apply load_tok_ok in TB.
  apply bind_ok in H. destruct H as ([[mq oq] nq] & TQ & H). apply load_tok_ok in TQ.
  apply bind_ok in H. destruct H as (w0 & E & H). apply Ok_inj in H. injection H as -> <-. cbn [snd] in E.
  destruct (bi_pool _ I _ _ P) as (c0 & nb0 & nq0 & wa & C0 & A & BV & QV & NE & TB0 & TQ0 & R & S).
  assert (c0 = c) by congruence. subst c0.
  rewrite TB in TB0. injection TB0 as -> -> ->. rewrite TQ in TQ0. injection TQ0 as -> -> ->.
  set (v := loaded b a p c nb0 nq0 (meta_at b a) (lp_at b a)) in *.
  pose proof (agree_sim _ _ S eq_refl) as SI.
  destruct (rsim_to _ _ _ (rsim_exec _ _ _ o SI (reachable_inv _ R)
    ltac:(intros s k n ->; discriminate O) ltac:(intros s n ->; discriminate O)) _ E) as (wa' & E' & S').
  exists c, v, wa, wa'. constructor; auto.
Qed.

Lemma ran_stored b a p c o v w wa wa' b1 : ran b a p c o v w wa wa' b1 ->
  b_admins b1 = b_admins b /\ b_ops b1 = b_ops b /\ b_treasury b1 = b_treasury b
  /\ b_acc b1 a = Some (APool (mkPoolAcct (w_pool w) (pa_config p) (pa_bmint p) (pa_bvault p) (pa_qvault p)
                                 (w_lamports w)))
  /\ b_acc b1 (pa_bvault p) = Some (ATok (pa_bmint p) Auth (w_bvault w))
  /\ b_acc b1 (pa_qvault p) = Some (ATok (c_quote_mint c) Auth (w_qvault w))
  /\ forall y, y <> a -> y <> pa_bvault p -> y <> pa_qvault p -> b_acc b1 y = b_acc b y.
Proof.
  intros []. subst b1. eapply stored_acc; eauto; rewrite ?rn_bv0, ?rn_qv0, ?rn_addr0; congruence.
Qed.

(** Handlers that leave the metadata and the LP tokens alone. *)
Lemma ran_binv b a p c o v w wa wa' b1 : binv b -> pool_op o = true -> meta_op o = false ->
  ran b a p c o v w wa wa' b1 -> binv b1.
Proof.
  intros I PO MO RN. destruct (ran_stored _ _ _ _ _ _ _ _ _ _ RN) as (S1 & S2 & S3 & S4 & S5 & S6 & S7).
  destruct RN.
  assert (MA : b_acc b1 (MetaA a) = b_acc b (MetaA a)) by (apply S7; congruence).
  assert (LA : forall lm, b_acc b1 (AtaA Auth lm) = b_acc b (AtaA Auth lm)) by (intros; apply S7; congruence).
  destruct (exec_env _ _ _ PO MO rn_exec'0) as (E1 & E2 & E3 & E4 & E5 & E6).
  pose proof (sim_agree _ _ _ rn_sim0) as AG.
  eapply local_binv with (w := wa') (p := p) (a := a); eauto.
  - intros y. destruct (addr_dec y a); [right; left; assumption|].
    destruct (addr_dec y (pa_bvault p)); [right; right; left; assumption|].
    destruct (addr_dec y (pa_qvault p)); [right; right; right; left; assumption|].
    left. apply S7; assumption.
  - eapply reachable_exec; eauto.
  - assert (meta_at b1 a = meta_at b a /\ lp_at b1 a = lp_at b a) as (-> & ->).
    { unfold meta_at, lp_at. rewrite MA. split; [reflexivity|].
      destruct (b_acc b (MetaA a)) as [[| | | |? ? [lm|]]|]; try reflexivity. rewrite LA. reflexivity. }
    rewrite rn_view0 in rn_agree0. destruct rn_agree0, AG. simpl in *.
    constructor; unfold loaded; simpl; congruence.
Qed.
