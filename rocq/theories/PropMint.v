(** * C68: the tokens of every pool move exactly as asked, and only with the vault's authority.
      Whatever quote mint a config was accepted for, and whatever its issuer and holders do to it later,
      a transfer debits and credits exactly its amount, and a vault can lose tokens only by a payment that
      the pool authority signs. The same holds of the base mints that this program creates. *)
From Coq Require Import ZArith List Bool Lia ZifyBool.
From Verif Require Import Base MathModel CurveModel FeeModel ConfigModel Lib ConfigProofs TokenModel Fixtures.
Import ListNotations.
Open Scope Z_scope.

(** ** What the theorems talk about *)

Definition holds (s : tstate) (a : Z) : Z := match t_accs s a with Some x => ta_amount x | None => 0 end.

(** [k] is a mint that a config was accepted for at some time before [s]. *)
Definition accepted_before (s : tstate) (k : Z) : Prop := exists before after m,
  s = trun (trun t_empty before) after
  /\ t_mints (trun t_empty before) k = Some m /\ is_supported_quote_mint m = Ok true.

(** A vault for mint [k]: owned by the pool authority, without a delegate or close authority. *)
Definition vault_at (s : tstate) (v k auth : Z) : Prop := exists n f,
  t_accs s v = Some (mkTacc k auth n f None None).

Definition t_signer (o : top) : option Z :=
  match o with
  | TTransfer s _ _ _ _ | TMintTo s _ _ _ | TBurn s _ _ | TFreeze s _ _ | TApprove s _ _ _ | TRevoke s _
  | TSetOwner s _ _ | TSetClose s _ _ | TCloseAccount s _ | TSetMintAuthority s _ _
  | TSetFreezeAuthority s _ _ | TSetExtension s _ _ _ | TCloseMint s _ | TInitMetadata s _ | TInitGroup s _
  | TInitMember s _ => Some s
  | TInitMint _ _ | TInitAccount _ _ _ | TSync _ _ => None
  end.

(** What this program signs for as the pool authority: transfer_checked, burn, mint_to and set_authority
    on mints, token metadata (utils/token.rs:87-118, migration/*.rs, initialize_pool/*.rs). *)
Definition program_signs (o : top) : bool :=
  match o with
  | TTransfer _ _ _ _ _ | TBurn _ _ _ | TMintTo _ _ _ _ | TSetMintAuthority _ _ _ | TInitMetadata _ _ => true
  | _ => false
  end.

(** ** Mints without powers over accounts *)

Record plain (m : mint) : Prop := {
  pl_ext : forall e, In e (mi_ext m) -> e = MetadataPointer \/ e = TokenMetadata }.

Lemma plain_none m (f : extension -> bool) : plain m -> f MetadataPointer = false -> f TokenMetadata = false ->
  existsb f (mi_ext m) = false.
Proof.
  intros P A B. apply not_true_is_false. intros E. apply existsb_exists in E. destruct E as (e & I & F).
  destruct (pl_ext _ P e I); subst e; congruence.
Qed.
Lemma plain_fee m a : plain m -> transfer_fee (mi_ext m) a = 0.
Proof.
  intros [P]. induction (mi_ext m) as [|e l IH]; [reflexivity|].
  destruct (P e (or_introl eq_refl)); subst e; simpl; apply IH; intros; apply P; right; auto.
Qed.

(** SPL mints have no extensions. *)
Definition spl_bare (s : tstate) : Prop := forall k m, t_mints s k = Some m -> mi_program m = SplToken -> mi_ext m = [].

Lemma supported_plain s k m : spl_bare s -> t_mints s k = Some m -> is_supported_quote_mint m = Ok true -> plain m.
Proof.
  intros W M S. unfold is_supported_quote_mint in S. destruct (mi_program m) eqn:P.
  - constructor. rewrite (W _ _ M P). intros e [].
  - apply bind_ok in S. destruct S as (u & _ & S). apply Ok_inj in S. constructor. intros e I.
    rewrite forallb_forall in S. specialize (S e I). destruct e; try discriminate S; auto.
Qed.

(** ** One step *)

Ltac mb H := match type of H with bind _ _ = Ok _ =>
  let H1 := fresh H in apply bind_ok in H; destruct H as (? & H1 & H) end.
Ltac tinv H := repeat (mb H); repeat match goal with
  | K : require _ _ = Ok _ |- _ => apply require_ok in K
  | K : ok_or _ _ = Ok _ |- _ => unfold ok_or in K
  end.

Lemma upd_same {A} (f : Z -> option A) k v : upd f k v k = v.
Proof. unfold upd. rewrite Z.eqb_refl. reflexivity. Qed.
Lemma upd_other {A} (f : Z -> option A) k v y : k <> y -> upd f k v y = f y.
Proof. intros N. unfold upd. replace (k =? y) with false by lia. reflexivity. Qed.

(** What one instruction does to mints: nothing, a change that keeps program, kind of extensions and a missing
    freeze authority, or a new mint at an unused address. *)
Definition evolves (m m' : mint) : Prop :=
  mi_program m' = mi_program m /\ mi_native m' = mi_native m
  /\ (mi_freeze m = None -> mi_freeze m' = None)
  /\ (plain m -> plain m')
  /\ (mi_ext m = [] -> mi_ext m' = []).

Lemma evolves_intro m m' : mi_program m' = mi_program m -> mi_native m' = mi_native m ->
  (mi_freeze m = None -> mi_freeze m' = None) -> mi_ext m' = mi_ext m -> evolves m m'.
Proof.
  intros A B C D. unfold evolves. rewrite D. split; [exact A|]. split; [exact B|]. split; [exact C|]. split; [|auto].
  intros [P]. constructor. rewrite D. exact P.
Qed.
Lemma evolves_refl m : evolves m m.
Proof. unfold evolves. auto. Qed.

Lemma get_mint_ok s k m : get_mint s k = Ok m -> t_mints s k = Some m.
Proof. unfold get_mint, ok_or. destruct (t_mints s k); [|discriminate]. intros E. apply Ok_inj in E. congruence. Qed.
Lemma get_acc_ok s k m : get_acc s k = Ok m -> t_accs s k = Some m.
Proof. unfold get_acc, ok_or. destruct (t_accs s k); [|discriminate]. intros E. apply Ok_inj in E. congruence. Qed.

Lemma set_mint_evolves s k m m' y mo :
  t_mints s k = Some m -> evolves m m' -> t_mints s y = Some mo ->
  exists mn, upd (t_mints s) k (Some m') y = Some mn /\ evolves mo mn.
Proof.
  intros M E O. destruct (Z.eq_dec k y) as [->|N].
  - rewrite upd_same. exists m'. split; [reflexivity|]. congruence.
  - rewrite upd_other by auto. exists mo. split; [auto|apply evolves_refl].
Qed.

Lemma ext_change_plain signer old new m :
  existsb (fun e => same_kind old e && may_change signer e new) (mi_ext m) = true -> plain m -> False.
Proof.
  intros E [P]. apply existsb_exists in E. destruct E as (e & I & F).
  destruct (P e I); subst e; destruct old; discriminate F.
Qed.

Lemma mints_step s o s' k m : texec s o = Ok s' -> t_mints s k = Some m ->
  (exists m', t_mints s' k = Some m' /\ evolves m m') \/ ~ plain m.
Proof.
  intros H M.
  assert (Same : t_mints s' = t_mints s -> (exists m', t_mints s' k = Some m' /\ evolves m m') \/ ~ plain m).
  { intros ->. left. exists m. split; [auto|apply evolves_refl]. }
  destruct o; cbn [texec] in H; try (tinv H; apply Ok_inj in H; subst s'; apply Same; reflexivity).
  - (* transfer *) repeat mb H. destruct (src =? dst).
    + apply Ok_inj in H. subst s'. apply Same. reflexivity.
    + mb H. apply Ok_inj in H. subst s'. apply Same. reflexivity.
  - (* mint_to *) repeat mb H. apply Ok_inj in H. subst s'. left. cbn [t_mints set_acc set_mint].
    match goal with K : get_mint _ _ = Ok _ |- _ => apply get_mint_ok in K; eapply set_mint_evolves; eauto end.
    apply evolves_intro; auto.
  - (* burn *) repeat mb H. apply Ok_inj in H. subst s'. left. cbn [t_mints set_acc set_mint].
    match goal with K : get_mint _ _ = Ok _ |- _ => apply get_mint_ok in K; eapply set_mint_evolves; eauto end.
    apply evolves_intro; auto.
  - (* mint authority *) repeat mb H. apply Ok_inj in H. subst s'. left. cbn [t_mints set_mint].
    match goal with K : get_mint _ _ = Ok _ |- _ => apply get_mint_ok in K; eapply set_mint_evolves; eauto end.
    apply evolves_intro; auto.
  - (* freeze authority *) repeat mb H. apply Ok_inj in H. subst s'. left. cbn [t_mints set_mint].
    match goal with K : get_mint _ _ = Ok _ |- _ => apply get_mint_ok in K; eapply set_mint_evolves; eauto end.
    match goal with K : require _ _ = Ok _ |- _ => apply require_ok in K; rename K into Q end.
    apply evolves_intro; auto. intros N. rewrite N in Q. discriminate Q.
  - (* extension *) repeat mb H. apply Ok_inj in H. subst s'. cbn [t_mints set_mint].
    match goal with K : get_mint _ _ = Ok _ |- _ => apply get_mint_ok in K; rename K into G end.
    match goal with K : require _ _ = Ok _ |- _ => apply require_ok in K; rename K into Q end.
    destruct (Z.eq_dec mint k) as [->|N].
    + right. intros P. rewrite G in M. injection M as ->. eapply ext_change_plain; eauto.
    + left. rewrite upd_other by auto. exists m. split; [auto|apply evolves_refl].
  - (* close mint *) repeat mb H. apply Ok_inj in H. subst s'. cbn [t_mints].
    match goal with K : get_mint _ _ = Ok _ |- _ => apply get_mint_ok in K; rename K into G end.
    match goal with K : require _ _ = Ok _ |- _ => apply require_ok in K; rename K into Q end.
    destruct (Z.eq_dec mint k) as [->|N].
    + right. intros P. rewrite G in M. injection M as ->. apply andb_true_iff in Q. destruct Q as (Q & _).
      unfold may_close_mint in Q. rewrite plain_none in Q by auto. discriminate Q.
    + left. rewrite upd_other by auto. exists m. split; [auto|apply evolves_refl].
  - (* metadata *) repeat mb H. apply Ok_inj in H. subst s'. left. cbn [t_mints set_mint].
    match goal with K : require _ _ = Ok _ |- _ => apply require_ok in K; rename K into Q end.
    match goal with K : get_mint _ _ = Ok _ |- _ => apply get_mint_ok in K; eapply set_mint_evolves; eauto end.
    unfold evolves, with_ext; simpl. do 3 (split; [auto|]). split.
    + intros [P]. constructor. simpl. intros e I. apply in_app_or in I. destruct I as [I|[<-|[]]]; auto.
    + intros N. unfold is_pointer in Q. rewrite N in Q. simpl in Q. rewrite andb_false_r in Q. discriminate Q.
  - (* group *) repeat mb H. apply Ok_inj in H. subst s'. cbn [t_mints set_mint].
    match goal with K : require _ _ = Ok _ |- _ => apply require_ok in K; rename K into Q end.
    match goal with K : get_mint _ _ = Ok _ |- _ => apply get_mint_ok in K; rename K into G end.
    destruct (Z.eq_dec mint k) as [->|N].
    + right. intros P. rewrite G in M. injection M as ->. apply andb_true_iff in Q. destruct Q as (_ & Q).
      unfold is_pointer in Q. rewrite plain_none in Q by auto. discriminate Q.
    + left. rewrite upd_other by auto. exists m. split; [auto|apply evolves_refl].
  - (* member *) repeat mb H. apply Ok_inj in H. subst s'. cbn [t_mints set_mint].
    match goal with K : require _ _ = Ok _ |- _ => apply require_ok in K; rename K into Q end.
    match goal with K : get_mint _ _ = Ok _ |- _ => apply get_mint_ok in K; rename K into G end.
    destruct (Z.eq_dec mint k) as [->|N].
    + right. intros P. rewrite G in M. injection M as ->. apply andb_true_iff in Q. destruct Q as (_ & Q).
      unfold is_pointer in Q. rewrite plain_none in Q by auto. discriminate Q.
    + left. rewrite upd_other by auto. exists m. split; [auto|apply evolves_refl].
  - (* new mint *) repeat mb H. apply Ok_inj in H. subst s'. cbn [t_mints set_mint].
    destruct (Z.eq_dec key k) as [->|N].
    + match goal with K : require (match t_mints s k with _ => _ end) _ = Ok _ |- _ => rewrite M in K; discriminate K end.
    + left. rewrite upd_other by auto. exists m. split; [auto|apply evolves_refl].
Qed.

Lemma set_mint_back s k m m1 y mn : t_mints s k = Some m -> mi_program m1 = mi_program m ->
  (mi_ext m = [] -> mi_ext m1 = []) -> upd (t_mints s) k (Some m1) y = Some mn ->
  exists mo, t_mints s y = Some mo /\ mi_program mn = mi_program mo /\ (mi_ext mo = [] -> mi_ext mn = []).
Proof.
  intros M P E U. destruct (Z.eq_dec k y) as [->|N].
  - rewrite upd_same in U. injection U as <-. eauto.
  - rewrite upd_other in U by auto. eauto.
Qed.

Lemma mints_back s o s' k m' : texec s o = Ok s' -> t_mints s' k = Some m' ->
  (exists m, t_mints s k = Some m /\ mi_program m' = mi_program m /\ (mi_ext m = [] -> mi_ext m' = []))
  \/ (mi_program m' = SplToken -> mi_ext m' = []).
Proof.
  intros H M.
  assert (Same : t_mints s' = t_mints s ->
    (exists m, t_mints s k = Some m /\ mi_program m' = mi_program m /\ (mi_ext m = [] -> mi_ext m' = []))
    \/ (mi_program m' = SplToken -> mi_ext m' = [])).
  { intros E. rewrite E in M. left. exists m'. auto. }
  destruct o; cbn [texec] in H; try (tinv H; apply Ok_inj in H; subst s'; apply Same; reflexivity).
  - repeat mb H. destruct (src =? dst).
    + apply Ok_inj in H. subst s'. apply Same. reflexivity.
    + mb H. apply Ok_inj in H. subst s'. apply Same. reflexivity.
  - repeat mb H. apply Ok_inj in H. subst s'. left. cbn [t_mints set_acc set_mint] in M.
    match goal with K : get_mint _ _ = Ok _ |- _ => apply get_mint_ok in K; refine (set_mint_back _ _ _ _ _ _ K _ _ M); auto end.
  - repeat mb H. apply Ok_inj in H. subst s'. left. cbn [t_mints set_acc set_mint] in M.
    match goal with K : get_mint _ _ = Ok _ |- _ => apply get_mint_ok in K; refine (set_mint_back _ _ _ _ _ _ K _ _ M); auto end.
  - repeat mb H. apply Ok_inj in H. subst s'. left. cbn [t_mints set_mint] in M.
    match goal with K : get_mint _ _ = Ok _ |- _ => apply get_mint_ok in K; refine (set_mint_back _ _ _ _ _ _ K _ _ M); auto end.
  - repeat mb H. apply Ok_inj in H. subst s'. left. cbn [t_mints set_mint] in M.
    match goal with K : get_mint _ _ = Ok _ |- _ => apply get_mint_ok in K; refine (set_mint_back _ _ _ _ _ _ K _ _ M); auto end.
  - repeat mb H. apply Ok_inj in H. subst s'. left. cbn [t_mints set_mint] in M.
    match goal with K : get_mint _ _ = Ok _ |- _ => apply get_mint_ok in K; refine (set_mint_back _ _ _ _ _ _ K _ _ M); auto end.
    simpl. intros ->. reflexivity.
  - repeat mb H. apply Ok_inj in H. subst s'. left. cbn [t_mints] in M. unfold upd in M.
    destruct (mint =? k); [discriminate M|]. eauto.
  - repeat mb H. apply Ok_inj in H. subst s'. left. cbn [t_mints set_mint] in M.
    match goal with K : require _ _ = Ok _ |- _ => apply require_ok in K; rename K into Q end.
    match goal with K : get_mint _ _ = Ok _ |- _ => apply get_mint_ok in K; refine (set_mint_back _ _ _ _ _ _ K _ _ M); auto end.
    intros N. unfold is_pointer in Q. rewrite N in Q. simpl in Q. rewrite andb_false_r in Q. discriminate Q.
  - repeat mb H. apply Ok_inj in H. subst s'. left. cbn [t_mints set_mint] in M.
    match goal with K : require _ _ = Ok _ |- _ => apply require_ok in K; rename K into Q end.
    match goal with K : get_mint _ _ = Ok _ |- _ => apply get_mint_ok in K; refine (set_mint_back _ _ _ _ _ _ K _ _ M); auto end.
    intros N. unfold is_pointer in Q. rewrite N in Q. simpl in Q. rewrite andb_false_r in Q. discriminate Q.
  - repeat mb H. apply Ok_inj in H. subst s'. left. cbn [t_mints set_mint] in M.
    match goal with K : require _ _ = Ok _ |- _ => apply require_ok in K; rename K into Q end.
    match goal with K : get_mint _ _ = Ok _ |- _ => apply get_mint_ok in K; refine (set_mint_back _ _ _ _ _ _ K _ _ M); auto end.
    intros N. unfold is_pointer in Q. rewrite N in Q. simpl in Q. rewrite andb_false_r in Q. discriminate Q.
  - repeat mb H. apply Ok_inj in H. subst s'. cbn [t_mints set_mint] in M. unfold upd in M.
    destruct (key =? k); [|left; eauto]. injection M as <-. right. intros P.
    match goal with K : require (_ && _) _ = Ok _ |- _ => apply require_ok in K; rename K into Q end.
    rewrite P in Q. apply andb_true_iff in Q. destruct Q as (_ & Q). destruct (mi_ext m); [reflexivity|discriminate Q].
Qed.

Lemma authorised_amount m x k a y : authorised m x k a = Ok y ->
  ta_amount y = ta_amount x /\ ta_mint y = ta_mint x /\ ta_owner y = ta_owner x /\ ta_frozen y = ta_frozen x
  /\ ta_close y = ta_close x.
Proof.
  unfold authorised. destruct ((ta_owner x =? k) || is_permanent_delegate m k).
  - intros Y. apply Ok_inj in Y. subst y. auto.
  - destruct (ta_delegate x) as [[d n]|]; [|discriminate]. destruct (_ && _); [|discriminate].
    intros Y. apply Ok_inj in Y. subst y. auto.
Qed.

Lemma tstep_cases s o : (exists s', texec s o = Ok s' /\ tstep s o = s') \/ tstep s o = s.
Proof. unfold tstep. destruct (texec s o); eauto. Qed.

Lemma bare_run ops : forall s, spl_bare s -> spl_bare (trun s ops).
Proof.
  induction ops as [|o ops IH]; intros s W; [exact W|]. apply IH.
  destruct (tstep_cases s o) as [(s' & E & ->)| ->]; [|exact W].
  intros k m' M P. destruct (mints_back _ _ _ _ _ E M) as [(m & M0 & P0 & X)|X]; [|auto].
  apply X, (W k m M0). congruence.
Qed.

Lemma plain_run ops : forall s k m, t_mints s k = Some m -> plain m ->
  exists m', t_mints (trun s ops) k = Some m' /\ evolves m m' /\ plain m'.
Proof.
  induction ops as [|o ops IH]; intros s k m M P; [exists m; split; [exact M|split; [apply evolves_refl|exact P]]|].
  simpl. destruct (tstep_cases s o) as [(s' & E & ->)| ->]; [|apply IH; auto].
  destruct (mints_step _ _ _ _ _ E M) as [(m1 & M1 & V)|X]; [|contradiction].
  destruct (IH s' k m1 M1) as (m' & M' & V' & P').
  { apply V. exact P. }
  exists m'. split; [exact M'|]. split; [|exact P'].
  unfold evolves in *. destruct V as (V1 & V2 & V3 & V4 & V5), V' as (W1 & W2 & W3 & W4 & W5).
  split; [congruence|]. split; [congruence|]. auto.
Qed.

Lemma accepted_plain s k : accepted_before s k -> exists m, t_mints s k = Some m /\ plain m.
Proof.
  intros (b & a & m & -> & M & S).
  assert (W : spl_bare (trun t_empty b)) by (apply bare_run; intros ? ? X; discriminate X).
  destruct (plain_run a _ _ _ M (supported_plain _ _ _ W M S)) as (m' & M' & _ & P'). eauto.
Qed.

(** ** The theorems *)

(** A mint that was accepted once would be accepted at any later time. *)
Theorem C68_support_stays : forall s k, accepted_before s k ->
  exists m, t_mints s k = Some m /\ is_supported_quote_mint m = Ok true.
Proof.
  intros s k (b & a & m & -> & M & S).
  assert (W : spl_bare (trun t_empty b)) by (apply bare_run; intros ? ? X; discriminate X).
  destruct (plain_run a _ _ _ M (supported_plain _ _ _ W M S)) as (m' & M' & (V1 & V2 & _) & [P']).
  exists m'. split; [exact M'|]. unfold is_supported_quote_mint in *. rewrite V1, V2.
  destruct (mi_program m); [reflexivity|]. destruct (mi_native m); [discriminate S|]. simpl. f_equal.
  apply forallb_forall. intros e I. destruct (P' e I); subst e; reflexivity.
Qed.

(** A transfer moves exactly its amount, whoever makes it and between whichever accounts. *)
Theorem C68_transfers_exact : forall s k signer src dst a hook s' x, accepted_before s k ->
  texec s (TTransfer signer src dst a hook) = Ok s' -> t_accs s src = Some x -> ta_mint x = k ->
  src <> dst ->
  holds s' src = holds s src - a /\ holds s' dst = holds s dst + a
  /\ (forall y, y <> src -> y <> dst -> t_accs s' y = t_accs s y)
  /\ t_mints s' = t_mints s.
Proof.
  intros s k sg src dst a hk s' x AB H X K N. cbn [texec] in H.
  destruct (accepted_plain _ _ AB) as (m & M & P).
  repeat mb H. replace (src =? dst) with false in H by lia. mb H. apply Ok_inj in H. subst s'.
  repeat match goal with K : get_acc _ _ = Ok _ |- _ => apply get_acc_ok in K
    | K : get_mint _ _ = Ok _ |- _ => apply get_mint_ok in K end.
  match goal with Q : t_accs s src = Some ?y |- _ => rewrite X in Q; injection Q as <- end.
  match goal with Q : t_mints s (ta_mint x) = Some ?y |- _ => rewrite K, M in Q; injection Q as <- end.
  match goal with Q : sadd _ _ _ = Ok _ |- _ => rewrite plain_fee in Q by exact P; apply sadd_ok in Q; rename Q into S end.
  match goal with Q : authorised _ _ _ _ = Ok _ |- _ => rename Q into AU end.
  apply authorised_amount in AU. unfold holds. cbn [t_accs set_acc t_mints].
  rewrite upd_same. rewrite (upd_other (upd _ _ _) dst) by auto. rewrite upd_same.
  match goal with Q : t_accs s dst = Some _ |- _ => rewrite Q end. rewrite X. cbn [ta_amount with_amount].
  split; [lia|]. split; [lia|]. split; [|reflexivity].
  intros y Y1 Y2. rewrite !upd_other; auto.
Qed.

(** What an instruction takes out of account [v] with the signature of [auth]. *)
Definition outflow (v auth : Z) (o : top) : Z :=
  match o with
  | TTransfer s src _ a _ => if (s =? auth) && (src =? v) then a else 0
  | TBurn s src a => if (s =? auth) && (src =? v) then a else 0
  | _ => 0
  end.
Fixpoint spent (s : tstate) (v auth : Z) (ops : list top) : Z :=
  match ops with
  | [] => 0
  | o :: r => (match texec s o with Ok _ => outflow v auth o | Err _ => 0 end) + spent (tstep s o) v auth r
  end.

(** The pool authority is a derived address: it signs nothing but what this program makes it sign. *)
Definition signs_as_program (auth : Z) (o : top) : Prop := t_signer o = Some auth -> program_signs o = true.

Lemma u64_range z : u64 z = true -> 0 <= z <= U64_MAX.
Proof. unfold u64. lia. Qed.

Lemma upd_at {A} (f : Z -> option A) k x v : upd f k (Some x) v = Some x /\ k = v \/ upd f k (Some x) v = f v /\ k <> v.
Proof. unfold upd. destruct (k =? v) eqn:E; [left|right]; (split; [reflexivity|lia]). Qed.

Ltac tget := repeat match goal with
  | K : get_acc _ _ = Ok _ |- _ => apply get_acc_ok in K
  | K : get_mint _ _ = Ok _ |- _ => apply get_mint_ok in K
  | K : require _ _ = Ok _ |- _ => apply require_ok in K
  | K : (_ && _)%bool = true |- _ => apply andb_true_iff in K; destruct K
  end.

Lemma vault_step s o s' v k auth n f m :
  t_mints s k = Some m -> plain m -> t_accs s v = Some (mkTacc k auth n f None None) ->
  texec s o = Ok s' -> signs_as_program auth o ->
  exists n' f', t_accs s' v = Some (mkTacc k auth n' f' None None)
    /\ n <= n' + outflow v auth o
    /\ (mi_freeze m = None -> f' = f).
Proof.
  intros M P V H SG. unfold signs_as_program in SG.
  assert (Same : t_accs s' v = t_accs s v -> 0 <= outflow v auth o -> exists n' f', t_accs s' v = Some (mkTacc k auth n' f' None None)
    /\ n <= n' + outflow v auth o /\ (mi_freeze m = None -> f' = f)).
  { intros E O. exists n, f. rewrite E. split; [exact V|]. split; [lia|auto]. }
  assert (AU : forall sg a y, authorised m (mkTacc k auth n f None None) sg a = Ok y ->
     sg = auth /\ y = mkTacc k auth n f None None).
  { intros sg a y Y. unfold authorised in Y. cbn [ta_owner ta_delegate] in Y.
    unfold is_permanent_delegate in Y. rewrite plain_none in Y by auto. rewrite orb_false_r in Y.
    destruct (auth =? sg) eqn:E; [|discriminate Y]. apply Ok_inj in Y. split; [lia|congruence]. }
  destruct o; cbn [texec] in H; cbn [t_signer program_signs outflow] in *.
  - (* transfer *) repeat mb H. tget.
    assert (U : 0 <= a <= U64_MAX) by (apply u64_range; assumption).
    match goal with Q : authorised _ _ _ _ = Ok _ |- _ => rename Q into A1 end.
    match goal with Q : t_accs s src = Some _ |- _ => rename Q into XS end.
    match goal with Q : t_accs s dst = Some _ |- _ => rename Q into XD end.
    match goal with Q : t_mints s _ = Some _ |- _ => lazymatch Q with M => fail | _ => rename Q into XM end end.
    assert (SRC : src = v -> signer = auth /\ x6 = mkTacc k auth n f None None /\ a <= n).
    { intros ->. rewrite V in XS. injection XS as <-. cbn [ta_mint] in XM. rewrite M in XM. injection XM as <-.
      destruct (AU _ _ _ A1) as (-> & ->). split; [auto|]. split; [auto|]. cbn [ta_amount] in *. lia. }
    destruct (src =? dst) eqn:SD.
    + apply Ok_inj in H. subst s'. cbn [t_accs set_acc].
      destruct (upd_at (t_accs s) src x6 v) as [(-> & E)|(E & N)].
      * destruct (SRC E) as (-> & -> & L). exists n, f. split; [auto|]. split; [|auto].
        rewrite E, !Z.eqb_refl. simpl. lia.
      * exists n, f. rewrite E. split; [auto|]. split; [|auto]. destruct (_ && _); lia.
    + mb H. apply Ok_inj in H. subst s'. cbn [t_accs set_acc].
      match goal with Q : sadd _ _ _ = Ok _ |- _ => apply sadd_ok in Q; rename Q into SA end.
      destruct (upd_at (upd (t_accs s) src (Some (with_amount x6 (ta_amount x6 - a)))) dst (with_amount x1 x8) v)
        as [(-> & E)|(-> & N)].
      * subst dst. rewrite V in XD. injection XD as <-. cbn [ta_amount ta_mint] in *.
        match goal with Q : (ta_mint x0 =? k) = true |- _ => rename Q into MK end.
        assert (EK : ta_mint x0 = k) by lia. rewrite EK, M in XM. injection XM as <-.
        rewrite plain_fee in SA by auto. exists x8, f. split; [reflexivity|]. split; [|auto].
        replace (src =? v) with false by lia. rewrite andb_false_r. lia.
      * destruct (upd_at (t_accs s) src (with_amount x6 (ta_amount x6 - a)) v) as [(-> & E)|(-> & N2)].
        -- destruct (SRC E) as (-> & -> & L). cbn [ta_amount with_amount]. exists (n - a), f. split; [reflexivity|].
           split; [|auto]. rewrite E, !Z.eqb_refl. simpl. lia.
        -- exists n, f. split; [auto|]. split; [|auto]. destruct (_ && _); lia.
  - (* mint_to *) repeat mb H. apply Ok_inj in H. subst s'. tget. cbn [t_accs set_acc set_mint] in *.
    assert (U : 0 <= a <= U64_MAX) by (apply u64_range; assumption).
    repeat match goal with Q : sadd _ _ _ = Ok _ |- _ => apply sadd_ok in Q end.
    match goal with |- exists n' f', upd ?F ?K (Some ?X) v = _ /\ _ => destruct (upd_at F K X v) as [(-> & E)|(E & N)] end.
    + subst dst. match goal with Q : t_accs s v = Some x2 |- _ => rewrite V in Q; injection Q as <- end.
      cbn [with_amount ta_mint ta_owner ta_frozen ta_delegate ta_close ta_amount] in *. do 2 eexists. split; [reflexivity|]. split; [lia|auto].
    + apply Same; [exact E|lia].
  - (* burn *) repeat mb H. apply Ok_inj in H. subst s'. tget. cbn [t_accs set_acc set_mint] in *.
    assert (U : 0 <= a <= U64_MAX) by (apply u64_range; assumption).
    match goal with |- exists n' f', upd ?F ?K (Some ?X) v = _ /\ _ => destruct (upd_at F K X v) as [(-> & E)|(E & N)] end.
    + subst src. match goal with Q : t_accs s v = Some x0 |- _ => rewrite V in Q; injection Q as <- end.
      cbn [ta_mint ta_amount] in *.
      match goal with Q : t_mints s k = Some x1 |- _ => rewrite M in Q; injection Q as <- end.
      match goal with Q : authorised _ _ _ _ = Ok _ |- _ => destruct (AU _ _ _ Q) as (-> & ->) end.
      cbn [with_amount ta_mint ta_owner ta_frozen ta_delegate ta_close ta_amount]. do 2 eexists. split; [reflexivity|]. split; [|auto].
      rewrite !Z.eqb_refl. simpl. lia.
    + apply Same; [exact E|]. destruct (_ && _); lia.
  - (* freeze *) repeat mb H. apply Ok_inj in H. subst s'. tget. cbn [t_accs set_acc set_mint] in *.
    match goal with |- exists n' f', upd ?F ?K (Some ?X) v = _ /\ _ => destruct (upd_at F K X v) as [(-> & E)|(E & N)] end.
    + subst acc. match goal with Q : t_accs s v = Some x |- _ => rewrite V in Q; injection Q as <- end.
      cbn [ta_mint ta_owner ta_frozen ta_delegate ta_close ta_amount] in *.
      match goal with Q : t_mints s k = Some x0 |- _ => rewrite M in Q; injection Q as <- end.
      do 2 eexists. split; [reflexivity|]. split; [lia|]. intros Z. rewrite Z in *. discriminate.
    + apply Same; [exact E|lia].
  - repeat mb H. apply Ok_inj in H. subst s'. tget. cbn [t_accs set_acc set_mint] in *.
    match goal with |- exists n' f', upd ?F ?K (Some ?X) v = _ /\ _ => destruct (upd_at F K X v) as [(-> & E)|(E & N)] end;
      [|apply Same; [exact E|lia]].
    subst acc. match goal with Q : t_accs s v = Some x |- _ => rewrite V in Q; injection Q as <- end.
    cbn [ta_owner] in *. assert (signer = auth) as -> by lia. discriminate (SG eq_refl).
  - repeat mb H. apply Ok_inj in H. subst s'. tget. cbn [t_accs set_acc set_mint] in *.
    match goal with |- exists n' f', upd ?F ?K (Some ?X) v = _ /\ _ => destruct (upd_at F K X v) as [(-> & E)|(E & N)] end;
      [|apply Same; [exact E|lia]].
    subst acc. match goal with Q : t_accs s v = Some x |- _ => rewrite V in Q; injection Q as <- end.
    cbn [ta_owner] in *. assert (signer = auth) as -> by lia. discriminate (SG eq_refl).
  - repeat mb H. apply Ok_inj in H. subst s'. tget. cbn [t_accs set_acc set_mint] in *.
    match goal with |- exists n' f', upd ?F ?K (Some ?X) v = _ /\ _ => destruct (upd_at F K X v) as [(-> & E)|(E & N)] end;
      [|apply Same; [exact E|lia]].
    subst acc. match goal with Q : t_accs s v = Some x |- _ => rewrite V in Q; injection Q as <- end.
    cbn [ta_owner] in *. assert (signer = auth) as -> by lia. discriminate (SG eq_refl).
  - repeat mb H. apply Ok_inj in H. subst s'. tget. cbn [t_accs set_acc set_mint] in *.
    match goal with |- exists n' f', upd ?F ?K (Some ?X) v = _ /\ _ => destruct (upd_at F K X v) as [(-> & E)|(E & N)] end;
      [|apply Same; [exact E|lia]].
    subst acc. match goal with Q : t_accs s v = Some x |- _ => rewrite V in Q; injection Q as <- end.
    cbn [ta_owner ta_close] in *. assert (signer = auth) as -> by lia. discriminate (SG eq_refl).
  - (* close *) repeat mb H. apply Ok_inj in H. subst s'. tget. cbn [t_accs] in *.
    destruct (Z.eq_dec acc v) as [->|N]; [|apply Same; [apply upd_other; auto|lia]].
    match goal with Q : t_accs s v = Some x |- _ => rewrite V in Q; injection Q as <- end.
    cbn [ta_owner ta_close] in *. assert (signer = auth) as -> by lia. discriminate (SG eq_refl).
  - repeat mb H. apply Ok_inj in H. subst s'. apply Same; [reflexivity|lia].
  - repeat mb H. apply Ok_inj in H. subst s'. apply Same; [reflexivity|lia].
  - repeat mb H. apply Ok_inj in H. subst s'. apply Same; [reflexivity|lia].
  - repeat mb H. apply Ok_inj in H. subst s'. apply Same; [reflexivity|lia].
  - repeat mb H. apply Ok_inj in H. subst s'. apply Same; [reflexivity|lia].
  - repeat mb H. apply Ok_inj in H. subst s'. apply Same; [reflexivity|lia].
  - repeat mb H. apply Ok_inj in H. subst s'. apply Same; [reflexivity|lia].
  - repeat mb H. apply Ok_inj in H. subst s'. apply Same; [reflexivity|lia].
  - (* new account *) repeat mb H. apply Ok_inj in H. subst s'. tget. cbn [t_accs set_acc] in *.
    destruct (Z.eq_dec key v) as [->|N]; [|apply Same; [apply upd_other; auto|lia]].
    match goal with Q : match t_mints s v with _ => _ end = true |- _ => rewrite V in Q; destruct (t_mints s v); discriminate Q end.
  - (* sync *) repeat mb H. apply Ok_inj in H. subst s'. tget. cbn [t_accs set_acc] in *.
    assert (U : 0 <= n0 <= U64_MAX) by (apply u64_range; assumption).
    match goal with Q : sadd _ _ _ = Ok _ |- _ => apply sadd_ok in Q end.
    match goal with |- exists n' f', upd ?F ?K (Some ?X) v = _ /\ _ => destruct (upd_at F K X v) as [(-> & E)|(E & N)] end;
      [|apply Same; [exact E|lia]].
    subst acc. match goal with Q : t_accs s v = Some x0 |- _ => rewrite V in Q; injection Q as <- end.
    cbn [with_amount ta_mint ta_owner ta_frozen ta_delegate ta_close ta_amount] in *. do 2 eexists. split; [reflexivity|]. split; [lia|auto].
Qed.

Lemma vault_run ops : forall s v k auth n f m,
  t_mints s k = Some m -> plain m -> t_accs s v = Some (mkTacc k auth n f None None) ->
  Forall (signs_as_program auth) ops ->
  exists n' f', t_accs (trun s ops) v = Some (mkTacc k auth n' f' None None)
    /\ n <= n' + spent s v auth ops /\ (mi_freeze m = None -> f' = f).
Proof.
  induction ops as [|o ops IH]; intros s v k auth n f m M P V F.
  { exists n, f. split; [exact V|]. split; [simpl; lia|auto]. }
  apply Forall_cons_iff in F. destruct F as (F0 & F). simpl. unfold tstep at 1.
  destruct (texec s o) as [s1|e] eqn:E.
  - destruct (vault_step _ _ _ _ _ _ _ _ _ M P V E F0) as (n1 & f1 & V1 & B1 & Z1).
    destruct (mints_step _ _ _ _ _ E M) as [(m1 & M1 & EV)|X]; [|contradiction].
    assert (P1 : plain m1) by (apply EV; exact P).
    assert (T : tstep s o = s1) by (unfold tstep; rewrite E; reflexivity). rewrite T.
    destruct (IH s1 v k auth n1 f1 m1 M1 P1 V1 F) as (n' & f' & V' & B' & Z').
    exists n', f'. split; [exact V'|]. split; [lia|]. intros Z. rewrite Z' by (apply EV; exact Z). auto.
  - assert (T : tstep s o = s) by (unfold tstep; rewrite E; reflexivity). rewrite T.
    destruct (IH s v k auth n f m M P V F) as (n' & f' & V' & B' & Z'). exists n', f'. auto.
Qed.

(** Whatever the issuer of the mint, its holders and this program do: the vault keeps its owner, never has a
    delegate or close authority, and loses only what the pool authority signed away. *)
Theorem C68_vault_safe : forall s v k auth ops, accepted_before s k -> vault_at s v k auth ->
  Forall (signs_as_program auth) ops ->
  vault_at (trun s ops) v k auth
  /\ holds s v <= holds (trun s ops) v + spent s v auth ops.
Proof.
  intros s v k auth ops AB (n & f & V) F. destruct (accepted_plain _ _ AB) as (m & M & P).
  destruct (vault_run ops s v k auth n f m M P V F) as (n' & f' & V' & B & _).
  split; [exists n', f'; exact V'|]. unfold holds. rewrite V, V'. exact B.
Qed.

(** A vault that is not frozen can pay all it has to any account of the mint that is not frozen and has room;
    no transfer hook can object. *)
Theorem C68_vault_pays : forall s v k auth dst y a hook, accepted_before s k -> vault_at s v k auth ->
  (forall x, t_accs s v = Some x -> ta_frozen x = false) ->
  t_accs s dst = Some y -> ta_mint y = k -> ta_frozen y = false -> v <> dst ->
  0 <= a <= U64_MAX -> a <= holds s v -> holds s dst + a <= U64_MAX ->
  exists s', texec s (TTransfer auth v dst a hook) = Ok s'
    /\ holds s' v = holds s v - a /\ holds s' dst = holds s dst + a.
Proof.
  intros s v k auth dst y a hook AB (n & f & V) NF Y YK YF N A1 A2 A3.
  destruct (accepted_plain _ _ AB) as (m & M & P). specialize (NF _ V). cbn [ta_frozen] in NF. subst f.
  assert (E : exists s', texec s (TTransfer auth v dst a hook) = Ok s').
  { unfold holds in A2, A3. rewrite V in A2. rewrite Y in A3. cbn [ta_amount] in A2.
    cbn [texec]. replace (u64 a) with true by (unfold u64; lia). cbn [require bind].
    unfold get_acc. rewrite V, Y. cbn [ok_or bind ta_mint ta_amount ta_frozen]. rewrite YK, Z.eqb_refl.
    cbn [require bind]. unfold get_mint. rewrite M. cbn [ok_or bind]. rewrite YF.
    unfold pausable, non_transferable, has_hook, authorised, is_permanent_delegate.
    rewrite !(plain_none m) by auto. cbn [negb andb orb require bind].
    replace (a <=? n) with true by lia. cbn [require bind ta_owner]. rewrite Z.eqb_refl. cbn [orb bind].
    replace (v =? dst) with false by lia. rewrite plain_fee by auto.
    rewrite sadd_intro by lia. cbn [bind]. eauto. }
  destruct E as (s' & E). exists s'. split; [exact E|].
  destruct (C68_transfers_exact _ _ _ _ _ _ _ _ _ AB E V eq_refl N) as (X1 & X2 & _). auto.
Qed.

(** Nobody can freeze a vault of a mint without a freeze authority, then or later. *)
Theorem C68_never_frozen : forall s v k auth m ops, accepted_before s k -> vault_at s v k auth ->
  t_mints s k = Some m -> mi_freeze m = None ->
  Forall (signs_as_program auth) ops ->
  (forall x, t_accs s v = Some x -> ta_frozen x = false) ->
  forall x, t_accs (trun s ops) v = Some x -> ta_frozen x = false.
Proof.
  intros s v k auth m ops AB (n & f & V) M Z F NF x X. destruct (accepted_plain _ _ AB) as (m1 & M1 & P).
  rewrite M in M1. injection M1 as <-. specialize (NF _ V). cbn [ta_frozen] in NF. subst f.
  destruct (vault_run ops s v k auth n false m M P V F) as (n' & f' & V' & _ & B).
  rewrite V' in X. injection X as <-. exact (B Z).
Qed.

(** The mint of a new pool: no freeze authority, the promised mint authority, the whole supply in the vault;
    and it is of the kind all the theorems above are about. *)
Theorem C68_base_mint : forall before ty auth bmint vault supply minter,
  let s0 := trun t_empty before in
  let s := trun s0 (base_mint_ops ty auth bmint vault supply minter) in
  t_mints s0 bmint = None -> t_accs s0 bmint = None -> t_mints s0 vault = None -> t_accs s0 vault = None ->
  bmint <> vault -> 0 <= supply <= U64_MAX ->
  exists m, t_mints s bmint = Some m
  /\ mi_freeze m = None /\ mi_authority m = minter /\ mi_supply m = supply
  /\ mi_program m = (if ty =? 0 then SplToken else Token2022)
  /\ t_accs s vault = Some (mkTacc bmint auth supply false None None)
  /\ accepted_before s bmint
  /\ (forall y, y <> bmint -> t_mints s y = t_mints s0 y)
  /\ (forall y, y <> vault -> t_accs s y = t_accs s0 y).
Proof.
  intros before ty auth bmint vault supply minter s0 s M0 A0 M1 A1 N S.
  assert (G : forall prg ext meta m,
    (length ext = 0%nat \/ prg = Token2022) ->
    existsb (fun e => match e with DefaultAccountState true => true | _ => false end) ext = false ->
    existsb (fun e => match e with Pausable _ true => true | _ => false end) ext = false ->
    m = mkMint prg false minter None supply (if meta : bool then ext ++ [TokenMetadata] else ext) ->
    is_supported_quote_mint m = Ok true ->
    (meta = true -> ext = [MetadataPointer]) ->
    let s1 := trun s0 ([TInitMint bmint (mkMint prg false (Some auth) None 0 ext)]
      ++ [TInitAccount vault bmint auth] ++ (if meta then [TInitMetadata auth bmint] else [])
      ++ [TMintTo auth bmint vault supply; TSetMintAuthority auth bmint minter]) in
    t_mints s1 bmint = Some m /\ t_accs s1 vault = Some (mkTacc bmint auth supply false None None)
    /\ (forall y, y <> bmint -> t_mints s1 y = t_mints s0 y)
    /\ (forall y, y <> vault -> t_accs s1 y = t_accs s0 y)).
  { intros prg ext meta m L D1 D2 -> SU MT s1. subst s1. clear s.
    set (st1 := set_mint s0 bmint (mkMint prg false (Some auth) None 0 ext)).
    set (st2 := set_acc st1 vault (mkTacc bmint auth 0 false None None)).
    set (ext' := if meta then ext ++ [TokenMetadata] else ext).
    set (st3 := if meta then set_mint st2 bmint (mkMint prg false (Some auth) None 0 ext') else st2).
    set (st4 := set_acc (set_mint st3 bmint (mkMint prg false (Some auth) None supply ext')) vault
                        (mkTacc bmint auth supply false None None)).
    set (st5 := set_mint st4 bmint (mkMint prg false minter None supply ext')).
    assert (T1 : tstep s0 (TInitMint bmint (mkMint prg false (Some auth) None 0 ext)) = st1).
    { unfold tstep. cbn [texec mi_supply mi_program mi_ext]. rewrite M0, A0. cbn [require bind].
      replace (match prg with SplToken => (length ext =? 0)%nat | Token2022 => true end) with true; [reflexivity|].
      destruct L as [L|L]; [rewrite L; destruct prg; reflexivity|rewrite L; reflexivity]. }
    assert (T2 : tstep st1 (TInitAccount vault bmint auth) = st2).
    { unfold tstep. cbn [texec]. unfold st1 at 1 2. cbn [t_mints t_accs set_mint]. rewrite upd_other by auto.
      rewrite M1, A1. cbn [require bind]. unfold get_mint, st1 at 1. cbn [t_mints set_mint]. rewrite upd_same.
      cbn [ok_or bind]. unfold default_frozen. cbn [mi_ext]. rewrite D1. reflexivity. }
    assert (G2 : t_mints st2 bmint = Some (mkMint prg false (Some auth) None 0 ext)).
    { unfold st2, st1. cbn [t_mints set_acc set_mint]. apply upd_same. }
    assert (V2 : t_accs st2 vault = Some (mkTacc bmint auth 0 false None None)).
    { unfold st2. cbn [t_accs set_acc]. apply upd_same. }
    assert (T3 : trun st2 (if meta then [TInitMetadata auth bmint] else []) = st3).
    { unfold st3. destruct meta; [|reflexivity]. cbn [trun fold_left]. unfold tstep. cbn [texec].
      unfold get_mint. rewrite G2. cbn [ok_or bind is_key mi_authority]. rewrite Z.eqb_refl.
      unfold is_pointer. cbn [mi_ext]. unfold ext'. rewrite (MT eq_refl). reflexivity. }
    assert (G3 : t_mints st3 bmint = Some (mkMint prg false (Some auth) None 0 ext')).
    { unfold st3, ext'. destruct meta; [cbn [t_mints set_mint]; apply upd_same|exact G2]. }
    assert (V3 : t_accs st3 vault = Some (mkTacc bmint auth 0 false None None)).
    { unfold st3. destruct meta; exact V2. }
    assert (P3 : pausable (mkMint prg false (Some auth) None 0 ext') = false).
    { unfold pausable, ext'. cbn [mi_ext]. destruct meta; [rewrite existsb_app, D2; reflexivity|exact D2]. }
    assert (T4 : tstep st3 (TMintTo auth bmint vault supply) = st4).
    { unfold tstep. cbn [texec]. replace (u64 supply) with true by (unfold u64; lia). cbn [require bind].
      unfold get_mint. rewrite G3. cbn [ok_or bind mi_authority is_key]. rewrite Z.eqb_refl, P3.
      cbn [andb negb require bind]. unfold get_acc. rewrite V3. cbn [ok_or bind ta_mint ta_frozen mi_native].
      rewrite Z.eqb_refl. cbn [andb negb require bind mi_supply ta_amount].
      rewrite !sadd_intro by lia. reflexivity. }
    assert (G4 : t_mints st4 bmint = Some (mkMint prg false (Some auth) None supply ext')).
    { unfold st4. cbn [t_mints set_acc set_mint]. apply upd_same. }
    assert (T5 : tstep st4 (TSetMintAuthority auth bmint minter) = st5).
    { unfold tstep. cbn [texec]. unfold get_mint. rewrite G4. cbn [ok_or bind mi_authority is_key].
      rewrite Z.eqb_refl. reflexivity. }
    replace (trun s0 _) with st5.
    2:{ unfold trun. rewrite !fold_left_app. cbn [fold_left]. rewrite T1, T2.
        change (fold_left tstep (if meta then [TInitMetadata auth bmint] else []) st2)
          with (trun st2 (if meta then [TInitMetadata auth bmint] else [])).
        rewrite T3, T4, T5. reflexivity. }
    split; [unfold st5; cbn [t_mints set_mint]; apply upd_same|].
    split; [unfold st5, st4; cbn [t_accs set_mint set_acc]; apply upd_same|].
    split; intros y Y; unfold st5, st4, st3, st2, st1; destruct meta;
      cbn [t_accs t_mints set_mint set_acc]; rewrite !upd_other; auto. }
  assert (AC : forall m, t_mints s bmint = Some m -> is_supported_quote_mint m = Ok true -> accepted_before s bmint).
  { intros m Q1 Q2. exists (before ++ base_mint_ops ty auth bmint vault supply minter), [], m.
    unfold s, s0, trun in *. rewrite fold_left_app. auto. }
  destruct (ty =? 0) eqn:TY.
  - destruct (G SplToken [] false _ (or_introl eq_refl) eq_refl eq_refl eq_refl eq_refl ltac:(discriminate)) as (R1 & R2 & R3 & R4).
    assert (E : base_mint_ops ty auth bmint vault supply minter = [TInitMint bmint (mkMint SplToken false (Some auth) None 0 [])]
      ++ [TInitAccount vault bmint auth] ++ [] ++ [TMintTo auth bmint vault supply; TSetMintAuthority auth bmint minter])
      by (unfold base_mint_ops; rewrite TY; reflexivity).
    unfold s in *. rewrite E in *. eexists. split; [exact R1|]. do 5 (split; [first [reflexivity|exact R2]|]).
    split; [apply (AC _ R1); reflexivity|auto].
  - destruct (G Token2022 [MetadataPointer] true _ (or_intror eq_refl) eq_refl eq_refl eq_refl eq_refl ltac:(auto)) as (R1 & R2 & R3 & R4).
    assert (E : base_mint_ops ty auth bmint vault supply minter = [TInitMint bmint (mkMint Token2022 false (Some auth) None 0 [MetadataPointer])]
      ++ [TInitAccount vault bmint auth] ++ [TInitMetadata auth bmint] ++ [TMintTo auth bmint vault supply; TSetMintAuthority auth bmint minter])
      by (unfold base_mint_ops; rewrite TY; reflexivity).
    unfold s in *. rewrite E in *. eexists. split; [exact R1|]. do 5 (split; [first [reflexivity|exact R2]|]).
    split; [apply (AC _ R1); reflexivity|auto].
Qed.

(** A config is only created for a mint of that kind; DAMM v1 pools only take SPL Token mints. *)
Theorem C68_config_quote : forall q m now quote_mint claimer leftover c,
  create_config_for q m now quote_mint claimer leftover = Ok c ->
  c_quote_mint c = quote_mint /\ is_supported_quote_mint m = Ok true
  /\ (c_migration_option c = 0 -> mi_program m = SplToken)
  /\ token_program_from_flag (token_program_flag m) = Ok (mi_program m).
Proof.
  intros q m now qm cl lo c H. unfold create_config_for in H.
  apply bind_ok in H. destruct H as (ok & S & H). pose proof H as H0.
  apply create_inv in H. destruct H as (mig & sb & ba & fl & pre & post & qa & bps & B).
  pose proof (cb_valid _ _ _ _ _ _ _ _ _ _ _ _ _ _ _ _ B) as V.
  apply validate_inv in V. destruct V as (OK & V).
  pose proof (cb_eq _ _ _ _ _ _ _ _ _ _ _ _ _ _ _ _ B) as EC.
  split; [rewrite EC; reflexivity|]. split; [congruence|]. split.
  - intros O. assert (E : c_migration_option c = q_migration_option q) by (rewrite EC; reflexivity).
    destruct (va_v1 _ _ _ V ltac:(congruence)) as (_ & X & _). unfold token_program_flag in X.
    destruct (mi_program m); [reflexivity|discriminate X].
  - unfold token_program_flag. destruct (mi_program m); reflexivity.
Qed.

(** ** Concrete cases *)

(** A Token-2022 quote mint 1 issued by 50 (freeze authority 51), holders 60 and 61, a vault of authority 7. *)
Definition fx_mint : mint := mkMint Token2022 false (Some 50) (Some 51) 0 [MetadataPointer].
Definition fx_before (m : mint) : list top :=
  [TInitMint 1 m; TInitAccount 100 1 60; TInitAccount 101 1 61; TInitAccount 102 1 7;
   TMintTo 50 1 100 1000000; TTransfer 60 100 102 40000 true].
Definition fx_s (m : mint) : tstate := trun t_empty (fx_before m).

Example C68_case :
  accepted_before (fx_s fx_mint) 1 /\ vault_at (fx_s fx_mint) 102 1 7 /\ holds (fx_s fx_mint) 102 = 40000
  /\ (exists s', texec (fx_s fx_mint) (TTransfer 7 102 101 15000 false) = Ok s' /\ holds s' 101 = 15000)
  /\ (let ops := [TTransfer 61 102 101 5 true; TApprove 61 102 61 9; TTransfer 7 102 101 15000 false;
                  TInitMetadata 50 1; TBurn 7 102 5000; TTransfer 60 100 102 1 true; TCloseAccount 61 102] in
      Forall (signs_as_program 7) ops /\ spent (fx_s fx_mint) 102 7 ops = 20000
      /\ holds (trun (fx_s fx_mint) ops) 102 = 20001).
Proof.
  split. { exists [TInitMint 1 fx_mint], (tl (fx_before fx_mint)), fx_mint. repeat split. }
  split. { exists 40000, false. reflexivity. }
  split; [reflexivity|]. split; [eexists; split; [reflexivity|reflexivity]|].
  cbv zeta. split; [repeat constructor; intro; discriminate|]. split; reflexivity.
Qed.

Example C68_base_case :
  let s := trun t_empty (base_mint_ops 1 7 200 201 5000 None) in
  exists m, t_mints s 200 = Some m /\ mi_ext m = [MetadataPointer; TokenMetadata]
  /\ holds s 201 = 5000 /\ mi_supply m = 5000 /\ mi_authority m = None
  /\ texec s (TFreeze 7 201 true) = Err EUnauthorized.
Proof. eexists. split; [reflexivity|]. repeat split. Qed.

Definition fx_ext (e : extension) : mint := mkMint Token2022 false (Some 50) None 0 [e].
Example C68_config_case :
  create_config_for fx_paramsA (mkMint SplToken false (Some 50) (Some 51) 0 []) 1700000000 11 22 33 = Ok cfgA
  /\ create_config_for fx_paramsA (fx_ext NonTransferable) 1700000000 11 22 33 <> Ok cfgA.
Proof. split; [exact cfgA_created|]. vm_compute. discriminate. Qed.

(** Not guaranteed: a freeze authority of the quote mint is accepted, and it can stop every payment of the
    vault. *)
Theorem C68_frozen_vault_refuted : exists s k v auth dst f, accepted_before s k /\ vault_at s v k auth
  /\ 0 < holds s v
  /\ (exists s', texec s (TTransfer auth v dst 1 true) = Ok s')
  /\ f <> auth
  /\ forall a h, exists e, texec (tstep s (TFreeze f v true)) (TTransfer auth v dst a h) = Err e.
Proof.
  exists (fx_s fx_mint), 1, 102, 7, 101, 51.
  split; [apply C68_case|]. split; [apply C68_case|]. split; [vm_compute; reflexivity|].
  split; [eexists; reflexivity|]. split; [lia|].
  intros a h. set (s1 := tstep (fx_s fx_mint) (TFreeze 51 102 true)).
  assert (X : get_acc s1 102 = Ok (mkTacc 1 7 40000 true None None)) by reflexivity.
  assert (Y : exists y, get_acc s1 101 = Ok y /\ ta_mint y = 1) by (eexists; split; reflexivity).
  assert (Z : exists m, get_mint s1 1 = Ok m) by (eexists; reflexivity).
  destruct Y as (y & Y & YM), Z as (m & Z). cbn [texec]. destruct (u64 a); [|eexists; reflexivity].
  cbn [require bind]. rewrite X, Y. cbn [bind ta_mint ta_frozen]. rewrite YM, Z. eexists. reflexivity.
Qed.

(** Why the other extensions must be refused: what each of them would allow. *)
Example C68_refused :
  Forall (fun e => is_supported_quote_mint (fx_ext e) = Ok false)
    [TransferFeeConfig 100 5000 (Some 50); PermanentDelegate (Some 50); Pausable (Some 50) false;
     TransferHook (Some 9); DefaultAccountState true; NonTransferable; MintCloseAuthority (Some 50);
     ConfidentialTransferMint; InterestBearingConfig; ScaledUiAmount; GroupPointer; GroupMemberPointer;
     TokenGroup; TokenGroupMember; ConfidentialMintBurn; ConfidentialTransferFeeConfig]
  /\ is_supported_quote_mint (mkMint Token2022 true None None 0 []) = Err EUnsupportNativeMintToken2022.
Proof. split; [repeat constructor|reflexivity]. Qed.
Example C68_fee_mint :
  holds (fx_s (fx_ext (TransferFeeConfig 100 5000 (Some 50)))) 102 = 39600.
Proof. reflexivity. Qed.
Example C68_delegate_mint :
  let s := fx_s (fx_ext (PermanentDelegate (Some 50))) in
  exists s', texec s (TTransfer 50 102 100 40000 true) = Ok s' /\ holds s' 102 = 0.
Proof. eexists. split; reflexivity. Qed.
Example C68_paused_mint :
  let s := tstep (fx_s (fx_ext (Pausable (Some 50) false)))
                 (TSetExtension 50 1 (Pausable None false) (Pausable (Some 50) true)) in
  texec s (TTransfer 7 102 101 1 true) = Err EOther.
Proof. reflexivity. Qed.
Example C68_hook_mint :
  texec (fx_s (fx_ext (TransferHook (Some 9)))) (TTransfer 7 102 101 1 false) = Err EOther.
Proof. reflexivity. Qed.

Print Assumptions C68_support_stays.
Print Assumptions C68_transfers_exact.
Print Assumptions C68_vault_safe.
Print Assumptions C68_vault_pays.
Print Assumptions C68_never_frozen.
Print Assumptions C68_base_mint.
Print Assumptions C68_config_quote.
Print Assumptions C68_frozen_vault_refuted.
