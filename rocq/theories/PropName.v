(** * C85: the token is called what it was called when it was created.
      Right after the opening of a pool, wallets show the name, symbol and link that the creator submitted;
      from then on only the party that the config appoints can change them, and nobody if the config says so. *)
From Coq Require Import ZArith List Bool Lia ZifyBool.
From Verif Require Import Base MathModel CurveModel FeeModel ConfigModel Lib TokenModel NameModel PropMint PropToken.
Import ListNotations.
Open Scope Z_scope.

(** ** What the theorems talk about *)

(** What a wallet shows of the token [k]: the Metaplex account of an SPL mint; for Token-2022, what the mint's
    pointer points to, if that is the mint itself. *)
Definition shows (s : nstate) (k : Z) : option label :=
  match n_mints s k with
  | None => None
  | Some m =>
    match nm_program m with
    | SplToken => match n_plex s k with Some p => Some (mp_label p) | None => None end
    | Token2022 => match nm_pointer m, nm_meta m with
                   | Some (_, a), Some (_, l) => if a =? k then Some l else None
                   | _, _ => None
                   end
    end
  end.
(** Who is in charge of it at the moment. *)
Definition in_charge (s : nstate) (k who : Z) : Prop :=
  exists m, n_mints s k = Some m /\
  match nm_program m with
  | SplToken => exists p, n_plex s k = Some p /\ mp_authority p = who
  | Token2022 => (exists a, nm_pointer m = Some (Some who, a)) \/ (exists l, nm_meta m = Some (Some who, l))
  end.
(** Nothing in [acts] is sent to the token and metadata programs by [who]. *)
Definition never_signs (who : option Z) (acts : list nact) : Prop :=
  forall o q, In (AOutside o) acts -> who = Some q -> nsigner o <> q.

(** ** One instruction *)

Ltac nb H := match type of H with bind _ _ = Ok _ =>
  let H1 := fresh H in apply bind_ok in H; destruct H as (? & H1 & H) end.
Ltac nget := repeat match goal with
  | K : ok_or _ _ = Ok _ |- _ => apply ok_or_ok in K
  | K : require _ _ = Ok _ |- _ => apply require_ok in K
  end.

(** Everything about the token [k], unless [signer] or a new record interferes. *)
Definition kept (s s' : nstate) (k : Z) : Prop := n_mints s' k = n_mints s k /\ n_plex s' k = n_plex s k.
Lemma kept_refl s k : kept s s k.
Proof. split; reflexivity. Qed.
Lemma kept_mint s j m k : j <> k -> kept s (put_mint s j m) k.
Proof. intros N. split; [apply upd_other; exact N|reflexivity]. Qed.
Lemma kept_plex s j p k : j <> k -> kept s (put_plex s j p) k.
Proof. intros N. split; [reflexivity|apply upd_other; exact N]. Qed.
Lemma kept_trans s1 s2 s3 k : kept s1 s2 k -> kept s2 s3 k -> kept s1 s3 k.
Proof. intros (A & B) (C & D). split; congruence. Qed.

Definition target (o : nop) : Z :=
  match o with
  | NInitMint _ k _ | NSetMintAuthority _ k _ | NInitMeta _ k _ _ | NUpdateMeta _ k _ | NUpdateMetaAuthority _ k _
  | NSetPointerAuthority _ k _ | NMovePointer _ k _ | NCreatePlex _ k _ _ _ | NUpdatePlex _ k _ _ _ => k
  end.
Lemma nexec_other s o s' k : nexec s o = Ok s' -> target o <> k -> kept s s' k.
Proof.
  intros H N. destruct o; cbn [nexec target] in *; repeat nb H;
    try (apply Ok_inj in H; subst s'; first [apply kept_mint|apply kept_plex]; exact N).
  all: match type of H with match ?d with _ => _ end = _ => destruct d as [[u z]|]; [|discriminate H] end;
    repeat nb H; apply Ok_inj in H; subst s'; apply kept_mint; exact N.
Qed.
Lemma nall_other l : forall s s' k, nall s l = Ok s' -> (forall o, In o l -> target o <> k) -> kept s s' k.
Proof.
  induction l as [|o l IH]; intros s s' k H N; [apply Ok_inj in H; subst s'; apply kept_refl|].
  cbn [nall] in H. nb H. eapply kept_trans; [eapply nexec_other; [eassumption|apply N; left; reflexivity]|].
  eapply IH; [eassumption|]. intros q Q. apply N. right. exact Q.
Qed.

Lemma init_unused s sg k m s' : nexec s (NInitMint sg k m) = Ok s' ->
  n_mints s k = None /\ s' = put_mint s k m.
Proof.
  intros H. cbn [nexec] in H. repeat nb H. nget. apply Ok_inj in H. subst s'.
  destruct (n_mints s k); [discriminate|]. auto.
Qed.
Lemma open_cases auth s ty k creator partner opt l s' :
  nact_exec auth s (AOpen ty k creator partner opt l) = Ok s' ->
  exists ops, nall s ops = Ok s' /\ (forall o, In o ops -> target o = k) /\ n_mints s k = None.
Proof.
  intros H. cbn [nact_exec] in H. repeat nb H. exists x0. split; [exact H|].
  destruct (ty =? 0).
  - unfold name_spl in H1. repeat nb H1. apply Ok_inj in H1. subst x0. split.
    + intros o. simpl. intros I. repeat (destruct I as [<-|I]; [reflexivity|]). destruct I.
    + cbn [nall] in H. nb H. eapply init_unused; eauto.
  - destruct (ty =? 1); [|discriminate H1]. unfold name_2022 in H1. repeat nb H1. apply Ok_inj in H1. subst x0. split.
    + intros o. simpl. intros I. repeat (destruct I as [<-|I]; [reflexivity|]). destruct I.
    + cbn [nall] in H. nb H. eapply init_unused; eauto.
Qed.
(** The opening of a pool never touches an existing token. *)
Lemma open_kept auth s ty j creator partner opt l s' k m :
  nact_exec auth s (AOpen ty j creator partner opt l) = Ok s' -> n_mints s k = Some m -> kept s s' k.
Proof.
  intros H M. apply open_cases in H. destruct H as (ops & R & T & N). eapply nall_other; [exact R|].
  intros o I. rewrite (T o I). intros ->. congruence.
Qed.

(** ** The invariant *)

(** The token [k] shows [l], and at most [p] can change that. *)
Definition named (s : nstate) (k : Z) (l : label) (p : option Z) : Prop :=
  exists m, n_mints s k = Some m /\
  match nm_program m with
  | SplToken => exists q, n_plex s k = Some q /\ mp_label q = l /\ (mp_mutable q = false \/ p = Some (mp_authority q))
  | Token2022 => nm_pointer m = Some (p, k) /\ nm_meta m = Some (p, l)
  end.
Lemma named_shows s k l p : named s k l p -> shows s k = Some l.
Proof.
  intros (m & M & R). unfold shows. rewrite M. destruct (nm_program m).
  - destruct R as (q & Q & <- & _). rewrite Q. reflexivity.
  - destruct R as (-> & ->). rewrite Z.eqb_refl. reflexivity.
Qed.
Lemma named_kept s s' k l p : kept s s' k -> named s k l p -> named s' k l p.
Proof. intros (A & B) (m & M & R). exists m. rewrite A, B. auto. Qed.

Lemma named_step s o s' k l p : named s k l p -> nexec s o = Ok s' -> (forall q, p = Some q -> nsigner o <> q) -> named s' k l p.
Proof.
  intros NM H SG. destruct (Z.eq_dec (target o) k) as [T|T]; [|eapply named_kept; [eapply nexec_other; eauto|exact NM]].
  destruct NM as (m & M & R). destruct o; cbn [target] in T; subst; cbn [nexec nsigner] in *.
  - repeat nb H. nget. rewrite M in *. discriminate.
  - repeat nb H. nget. apply Ok_inj in H. subst s'. exists (mkNmint (nm_program m) new (nm_pointer m) (nm_meta m)).
    split; [cbn [n_mints put_mint]; rewrite upd_same; congruence|]. exact R.
  - repeat nb H. nget. apply Ok_inj in H. subst s'. rewrite M in *.
    match goal with Q : Some m = Some ?x |- _ => injection Q as <- end.
    destruct (nm_program m) eqn:PR.
    + eexists. split; [cbn [n_mints put_mint]; apply upd_same|]. cbn [nm_program]. try rewrite PR. exact R.
    + destruct R as (R1 & R2). rewrite R1, R2 in *. discriminate.
  - repeat nb H. nget. rewrite M in *. match goal with Q : Some m = Some ?x |- _ => injection Q as <- end.
    destruct (nm_meta m) as [[u z]|] eqn:ME; [|discriminate H]. repeat nb H. nget. apply Ok_inj in H. subst s'.
    destruct (nm_program m) eqn:PR.
    + eexists. split; [cbn [n_mints put_mint]; apply upd_same|]. cbn [nm_program]. try rewrite PR. exact R.
    + destruct R as (R1 & R2). injection R2 as -> ->. destruct p as [q|]; [|discriminate].
      exfalso. apply (SG q eq_refl). cbn [is_key] in *. lia.
  - repeat nb H. nget. rewrite M in *. match goal with Q : Some m = Some ?x |- _ => injection Q as <- end.
    destruct (nm_meta m) as [[u z]|] eqn:ME; [|discriminate H]. repeat nb H. nget. apply Ok_inj in H. subst s'.
    destruct (nm_program m) eqn:PR.
    + eexists. split; [cbn [n_mints put_mint]; apply upd_same|]. cbn [nm_program]. try rewrite PR. exact R.
    + destruct R as (R1 & R2). injection R2 as -> ->. destruct p as [q|]; [|discriminate].
      exfalso. apply (SG q eq_refl). cbn [is_key] in *. lia.
  - repeat nb H. nget. rewrite M in *. match goal with Q : Some m = Some ?x |- _ => injection Q as <- end.
    destruct (nm_pointer m) as [[u z]|] eqn:ME; [|discriminate H]. repeat nb H. nget. apply Ok_inj in H. subst s'.
    destruct (nm_program m) eqn:PR.
    + eexists. split; [cbn [n_mints put_mint]; apply upd_same|]. cbn [nm_program]. try rewrite PR. exact R.
    + destruct R as (R1 & R2). injection R1 as -> ->. destruct p as [q|]; [|discriminate].
      exfalso. apply (SG q eq_refl). cbn [is_key] in *. lia.
  - repeat nb H. nget. rewrite M in *. match goal with Q : Some m = Some ?x |- _ => injection Q as <- end.
    destruct (nm_pointer m) as [[u z]|] eqn:ME; [|discriminate H]. repeat nb H. nget. apply Ok_inj in H. subst s'.
    destruct (nm_program m) eqn:PR.
    + eexists. split; [cbn [n_mints put_mint]; apply upd_same|]. cbn [nm_program]. try rewrite PR. exact R.
    + destruct R as (R1 & R2). injection R1 as -> ->. destruct p as [q|]; [|discriminate].
      exfalso. apply (SG q eq_refl). cbn [is_key] in *. lia.
  - repeat nb H. nget. apply Ok_inj in H. subst s'. exists m. split; [exact M|]. destruct (nm_program m) eqn:PR; [|exact R].
    destruct R as (q & Q & _). rewrite Q in *. discriminate.
  - repeat nb H. nget. apply Ok_inj in H. subst s'. exists m. split; [exact M|]. destruct (nm_program m) eqn:PR; [|exact R].
    destruct R as (q & Q & L & C). rewrite Q in *. match goal with Q : Some q = Some ?x |- _ => injection Q as <- end.
    destruct C as [C|C]; [|exfalso; apply (SG _ C); lia].
    eexists. split; [cbn [n_plex put_plex]; apply upd_same|]. cbn [mp_label mp_mutable mp_authority].
    rewrite C in *. cbn [andb orb] in *.
    destruct data as [dl|]; [nb H2; discriminate|]. apply Ok_inj in H2. subst.
    split; [reflexivity|]. left. destruct mutable as [b|].
    + nb H3. nget. apply Ok_inj in H3. subst. match goal with Q : negb ?z = true |- ?z = false => destruct z; [discriminate Q|reflexivity] end.
    + apply Ok_inj in H3. congruence.
Qed.

Lemma named_run auth acts : forall s k l p, named s k l p -> never_signs p acts -> named (nrun auth s acts) k l p.
Proof.
  induction acts as [|a acts IH]; intros s k l p NM NS; [exact NM|]. change (nrun auth s (a :: acts)) with (nrun auth (nact_step auth s a) acts).
  apply IH; [|intros o q I; apply NS; right; exact I].
  unfold nact_step. destruct (nact_exec auth s a) as [s'|] eqn:H; [|exact NM]. destruct a as [ty j creator partner opt lb|o].
  - pose proof NM as (m & M & _). eapply named_kept; [eapply open_kept; eauto|exact NM].
  - cbn [nact_exec] in H. nb H. eapply named_step; eauto. intros q Q. apply (NS o q); [left; reflexivity|exact Q].
Qed.

(** ** The opening *)

Lemma updater_of opt creator partner up : get_update_authority opt creator partner = Ok up -> updater creator partner opt up.
Proof.
  unfold get_update_authority. intros U.
  destruct ((opt =? 0) || (opt =? 3)) eqn:E3; [apply Ok_inj in U; subst up; constructor; lia|].
  destruct ((opt =? 2) || (opt =? 4)) eqn:E4; [apply Ok_inj in U; subst up; constructor; lia|].
  destruct (opt =? 1) eqn:E; [|discriminate]. apply Ok_inj in U. subst up. replace opt with 1 by lia. constructor.
Qed.
Lemma updater_unique creator partner opt p q : updater creator partner opt p -> updater creator partner opt q -> p = q.
Proof. intros A B. inversion A; inversion B; subst; try reflexivity; lia. Qed.

Lemma is_key_refl k : is_key (Some k) k = true.
Proof. apply Z.eqb_refl. Qed.

Lemma set_auth_ok s k m sg new s' : n_mints s k = Some m -> nexec s (NSetMintAuthority sg k new) = Ok s' ->
  s' = put_mint s k (mkNmint (nm_program m) new (nm_pointer m) (nm_meta m)).
Proof. intros M H. cbn [nexec] in H. rewrite M in H. cbn [ok_or bind] in H. nb H. apply Ok_inj in H. auto. Qed.
Lemma create_plex_ok s k sg u b l s' : nexec s (NCreatePlex sg k u b l) = Ok s' -> s' = put_plex s k (mkMetaplex u b l).
Proof. intros H. cbn [nexec] in H. repeat nb H. apply Ok_inj in H. auto. Qed.
Lemma hand_plex_ok s k q sg u s' : n_plex s k = Some q -> nexec s (NUpdatePlex sg k None (Some u) None) = Ok s' ->
  s' = put_plex s k (mkMetaplex u (mp_mutable q) (mp_label q)).
Proof. intros M H. cbn [nexec] in H. rewrite M in H. cbn [ok_or bind] in H. nb H. apply Ok_inj in H. auto. Qed.
Lemma init_meta_ok s k m sg u l s' : n_mints s k = Some m -> nexec s (NInitMeta sg k u l) = Ok s' ->
  s' = put_mint s k (mkNmint (nm_program m) (nm_auth m) (nm_pointer m) (Some (Some u, l))).
Proof. intros M H. cbn [nexec] in H. rewrite M in H. cbn [ok_or bind] in H. repeat nb H. apply Ok_inj in H. auto. Qed.
Lemma hand_meta_ok s k m sg u l new s' : n_mints s k = Some m -> nm_meta m = Some (u, l) ->
  nexec s (NUpdateMetaAuthority sg k new) = Ok s' ->
  s' = put_mint s k (mkNmint (nm_program m) (nm_auth m) (nm_pointer m) (Some (new, l))).
Proof. intros M E H. cbn [nexec] in H. rewrite M in H. cbn [ok_or bind] in H. rewrite E in H. repeat nb H. apply Ok_inj in H. auto. Qed.
Lemma hand_pointer_ok s k m sg u a new s' : n_mints s k = Some m -> nm_pointer m = Some (u, a) ->
  nexec s (NSetPointerAuthority sg k new) = Ok s' ->
  s' = put_mint s k (mkNmint (nm_program m) (nm_auth m) (Some (new, a)) (nm_meta m)).
Proof. intros M E H. cbn [nexec] in H. rewrite M in H. cbn [ok_or bind] in H. rewrite E in H. repeat nb H. apply Ok_inj in H. auto. Qed.

Lemma at_mint s k m : n_mints (put_mint s k m) k = Some m.
Proof. apply upd_same. Qed.
Lemma at_plex s k p : n_plex (put_plex s k p) k = Some p.
Proof. apply upd_same. Qed.

Lemma open_result auth s ty k creator partner opt l s' p : nact_exec auth s (AOpen ty k creator partner opt l) = Ok s' ->
  updater creator partner opt p ->
  exists mi,
  (n_mints s' k = Some (mkNmint SplToken mi None None)
   /\ n_plex s' k = Some (mkMetaplex (match p with Some u => u | None => SYSTEM end) (negb (opt =? 1)) l))
  \/ n_mints s' k = Some (mkNmint Token2022 mi (Some (p, k)) (Some (p, l))).
Proof.
  intros H UP. cbn [nact_exec] in H. nb H. clear H0. nb H. rename H0 into O. destruct (ty =? 0).
  - unfold name_spl in O. nb O. apply updater_of in O0. rewrite <- (updater_unique _ _ _ _ _ UP O0) in *. clear O0.
    nb O. apply Ok_inj in O. subst. cbn [nall] in H.
    nb H. apply init_unused in H0. destruct H0 as (N & ->). nb H. apply create_plex_ok in H0. subst.
    nb H. eapply hand_plex_ok in H0; [|apply at_plex]. subst. nb H.
    eapply set_auth_ok in H0; [|cbn [n_mints put_plex]; apply at_mint]. subst. apply Ok_inj in H. subst.
    cbn [mp_mutable mp_label nm_program nm_pointer nm_meta].
    eexists. left. split; [apply at_mint|]. cbn [n_plex put_mint]. apply at_plex.
  - destruct (ty =? 1); [|discriminate O].
    unfold name_2022 in O. nb O. apply updater_of in O0. rewrite <- (updater_unique _ _ _ _ _ UP O0) in *. clear O0.
    nb O. apply Ok_inj in O. subst. cbn [nall] in H.
    nb H. apply init_unused in H0. destruct H0 as (N & ->).
    nb H. eapply init_meta_ok in H0; [|apply at_mint]. subst. cbn [nm_program nm_pointer nm_auth] in H.
    nb H. eapply hand_pointer_ok in H0; [|apply at_mint|reflexivity]. subst. cbn [nm_program nm_meta nm_auth] in H.
    nb H. eapply hand_meta_ok in H0; [|apply at_mint|reflexivity]. subst. cbn [nm_program nm_pointer nm_auth] in H.
    nb H. eapply set_auth_ok in H0; [|apply at_mint]. subst. cbn [nm_program nm_pointer nm_meta] in H. apply Ok_inj in H. subst.
    eexists. right. apply at_mint.
Qed.

Lemma open_named auth s ty k creator partner opt l s' p : nact_exec auth s (AOpen ty k creator partner opt l) = Ok s' ->
  updater creator partner opt p -> named s' k l p.
Proof.
  intros H UP. destruct (open_result _ _ _ _ _ _ _ _ _ _ H UP) as (mi & [(M & Q)|M]).
  - eexists. split; [exact M|]. cbn [nm_program]. eexists. split; [exact Q|]. cbn [mp_label mp_mutable mp_authority].
    split; [reflexivity|]. inversion UP; subst; auto.
  - eexists. split; [exact M|]. cbn [nm_program nm_pointer nm_meta]. auto.
Qed.

(** ** C85 *)

(** [p] is whom the config appoints (C57): as long as they send nothing to the two programs, the token is
    called what it was called at the start, whatever anybody else does. *)
Theorem C85_only_the_appointed : forall auth s ty bmint creator partner opt given s1 p acts,
  nact_exec auth s (AOpen ty bmint creator partner opt given) = Ok s1 ->
  updater creator partner opt p -> never_signs p acts ->
  shows (nrun auth s1 acts) bmint = Some given.
Proof. intros. eapply named_shows, named_run; [eapply open_named; eauto|assumption]. Qed.

(** With an immutable token nobody can change anything. *)
Theorem C85_immutable : forall auth s ty bmint creator partner given s1 acts,
  nact_exec auth s (AOpen ty bmint creator partner 1 given) = Ok s1 ->
  shows (nrun auth s1 acts) bmint = Some given.
Proof.
  intros. eapply C85_only_the_appointed; [eassumption|apply up_none|]. intros o q _ Q. discriminate Q.
Qed.

(** In any state, after any hand-overs: what a token shows changes only with the signature of a party in charge
    of it at that moment. *)
Theorem C85_change_is_authorised : forall auth s a k l,
  shows s k = Some l -> shows (nact_step auth s a) k <> Some l ->
  exists o, a = AOutside o /\ in_charge s k (nsigner o).
Proof.
  intros auth s a k l S C. unfold nact_step in C. destruct (nact_exec auth s a) as [s'|] eqn:H; [|contradiction].
  unfold shows in S. destruct (n_mints s k) as [m|] eqn:M; [|discriminate S].
  assert (KEPT : kept s s' k -> False).
  { intros (A & B). apply C. unfold shows. rewrite A, B, M. exact S. }
  destruct a as [ty j creator partner opt lb|o]; [exfalso; apply KEPT; eapply open_kept; eauto|].
  exists o. split; [reflexivity|]. cbn [nact_exec] in H. nb H. clear H0.
  destruct (Z.eq_dec (target o) k) as [T|T]; [|exfalso; apply KEPT; eapply nexec_other; eauto].
  exists m. split; [exact M|].
  (* a change of the mint that keeps pointer and metadata changes nothing *)
  assert (SAME : forall y, s' = put_mint s k (mkNmint (nm_program m) y (nm_pointer m) (nm_meta m)) -> False).
  { intros y ->. apply C. unfold shows. rewrite at_mint. cbn [nm_program nm_pointer nm_meta]. cbn [n_plex put_mint]. exact S. }
  assert (SPL : forall m', nm_program m = SplToken -> nm_program m' = SplToken -> s' = put_mint s k m' -> False).
  { intros m' P P' ->. apply C. unfold shows. rewrite at_mint, P'. rewrite P in S. cbn [n_plex put_mint]. exact S. }
  assert (T22 : forall q, nm_program m = Token2022 -> s' = put_plex s k q -> False).
  { intros q P ->. apply C. unfold shows. cbn [n_mints put_plex]. rewrite M, P. rewrite P in S. exact S. }
  destruct o; cbn [target] in T; subst; cbn [nexec nsigner] in *.
  - repeat nb H. nget. rewrite M in *. discriminate.
  - exfalso. rewrite M in H. cbn [ok_or bind] in H. nb H. apply Ok_inj in H. eapply SAME. symmetry. exact H.
  - exfalso. rewrite M in H. cbn [ok_or bind] in H. repeat nb H. nget. apply Ok_inj in H. destruct (nm_program m) eqn:P.
    + eapply SPL; [reflexivity| |symmetry; exact H]. reflexivity.
    + destruct (nm_pointer m) as [[u z]|]; [|discriminate S]. destruct (nm_meta m); [discriminate|discriminate S].
  - rewrite M in H. cbn [ok_or bind] in H. destruct (nm_meta m) as [[u z]|] eqn:E; [|discriminate H]. nb H. nget. apply Ok_inj in H.
    destruct (nm_program m) eqn:P; [exfalso; eapply SPL; [reflexivity| |symmetry; exact H]; reflexivity|].
    right. destruct u as [u|]; [|discriminate]. exists z. cbn [is_key] in *. do 3 f_equal. lia.
  - rewrite M in H. cbn [ok_or bind] in H. destruct (nm_meta m) as [[u z]|] eqn:E; [|discriminate H]. repeat nb H. nget. apply Ok_inj in H.
    destruct (nm_program m) eqn:P; [exfalso; eapply SPL; [reflexivity| |symmetry; exact H]; reflexivity|].
    right. destruct u as [u|]; [|discriminate]. exists z. cbn [is_key] in *. do 3 f_equal. lia.
  - rewrite M in H. cbn [ok_or bind] in H. destruct (nm_pointer m) as [[u z]|] eqn:E; [|discriminate H]. repeat nb H. nget. apply Ok_inj in H.
    destruct (nm_program m) eqn:P; [exfalso; eapply SPL; [reflexivity| |symmetry; exact H]; reflexivity|].
    left. destruct u as [u|]; [|discriminate]. exists z. cbn [is_key] in *. do 3 f_equal. lia.
  - rewrite M in H. cbn [ok_or bind] in H. destruct (nm_pointer m) as [[u z]|] eqn:E; [|discriminate H]. repeat nb H. nget. apply Ok_inj in H.
    destruct (nm_program m) eqn:P; [exfalso; eapply SPL; [reflexivity| |symmetry; exact H]; reflexivity|].
    left. destruct u as [u|]; [|discriminate]. exists z. cbn [is_key] in *. do 3 f_equal. lia.
  - exfalso. repeat nb H. nget. apply Ok_inj in H. destruct (nm_program m) eqn:P; [|eapply T22; [reflexivity|symmetry; exact H]].
    destruct (n_plex s k); [discriminate|discriminate S].
  - repeat nb H. nget. apply Ok_inj in H. destruct (nm_program m) eqn:P; [|exfalso; eapply T22; [reflexivity|symmetry; exact H]].
    eexists. split; [eassumption|]. lia.
Qed.

(** The appointed party can change the name to whatever they like (within the lengths that Metaplex allows). *)
Theorem C85_appointed_can : forall auth s ty bmint creator partner opt given s1 p wanted,
  nact_exec auth s (AOpen ty bmint creator partner opt given) = Ok s1 ->
  updater creator partner opt (Some p) -> p <> auth -> p <> SYSTEM -> fits wanted = true ->
  exists o, nsigner o = p /\ shows (nact_step auth s1 (AOutside o)) bmint = Some wanted.
Proof.
  intros auth s ty k creator partner opt given s1 p wanted H UP N1 N2 F.
  assert (G : forall o, nsigner o = p -> forall s2, nexec s1 o = Ok s2 -> nact_step auth s1 (AOutside o) = s2).
  { intros o S s2 E. unfold nact_step. cbn [nact_exec]. rewrite S. replace (p =? auth) with false by lia.
    replace (p =? SYSTEM) with false by lia. cbn [negb andb require bind]. rewrite E. reflexivity. }
  destruct (open_result _ _ _ _ _ _ _ _ _ _ H UP) as (mi & [(M & Q)|M]).
  - assert (B : negb (opt =? 1) = true) by (inversion UP; subst; apply negb_true_iff, Z.eqb_neq; lia). rewrite B in Q.
    assert (E : nexec s1 (NUpdatePlex p k (Some wanted) None None) = Ok (put_plex s1 k (mkMetaplex p true wanted))).
    { cbn [nexec]. rewrite Q. cbn [ok_or bind mp_authority mp_mutable]. rewrite Z.eqb_refl, F. reflexivity. }
    exists (NUpdatePlex p k (Some wanted) None None). split; [reflexivity|].
    rewrite (G (NUpdatePlex p k (Some wanted) None None) eq_refl _ E).
    unfold shows. cbn [n_mints put_plex]. rewrite M. cbn [nm_program]. rewrite at_plex. reflexivity.
  - assert (E : nexec s1 (NUpdateMeta p k wanted) = Ok (put_mint s1 k (mkNmint Token2022 mi (Some (Some p, k)) (Some (Some p, wanted))))).
    { cbn [nexec]. rewrite M. cbn [ok_or bind nm_meta]. rewrite is_key_refl. reflexivity. }
    exists (NUpdateMeta p k wanted). split; [reflexivity|]. rewrite (G (NUpdateMeta p k wanted) eq_refl _ E).
    unfold shows. rewrite at_mint. cbn [nm_program nm_pointer nm_meta]. rewrite Z.eqb_refl. reflexivity.
Qed.

(** A pool can be opened under any name (for SPL tokens within Metaplex's lengths), on an unused mint address,
    by anybody, whatever party the config appoints (for Token-2022 other than the all-zero key). *)
Theorem C85_can_be_named : forall auth s ty bmint creator partner opt given p,
  (ty = 0 /\ fits given = true /\ n_plex s bmint = None \/ ty = 1 /\ p <> Some SYSTEM) ->
  updater creator partner opt p -> n_mints s bmint = None -> creator <> auth -> creator <> SYSTEM ->
  exists s1, nact_exec auth s (AOpen ty bmint creator partner opt given) = Ok s1
    /\ shows s1 bmint = Some given.
Proof.
  intros auth s ty k creator partner opt given p TY UP N C1 C2.
  assert (U : get_update_authority opt creator partner = Ok p).
  { unfold get_update_authority. inversion UP; subst.
    - replace ((opt =? 0) || (opt =? 3)) with true by lia. reflexivity.
    - replace ((opt =? 0) || (opt =? 3)) with false by lia. replace ((opt =? 2) || (opt =? 4)) with true by lia. reflexivity.
    - reflexivity. }
  assert (MI : exists mi, get_mint_authority opt creator partner = Ok mi).
  { unfold get_mint_authority. destruct (opt =? 3) eqn:E3; [eauto|]. destruct (opt =? 4) eqn:E4; [eauto|].
    replace ((0 <=? opt) && (opt <=? 2)) with true by (inversion UP; lia). eauto. }
  destruct MI as (mi & MI).
  assert (E : exists s1, nact_exec auth s (AOpen ty k creator partner opt given) = Ok s1).
  { cbn [nact_exec]. replace (creator =? auth) with false by lia. replace (creator =? SYSTEM) with false by lia.
    cbn [negb andb require bind]. destruct TY as [(-> & F & PX)|(-> & PS)].
    - change (0 =? 0) with true. cbv iota. unfold name_spl. rewrite U, MI. cbn [bind nall nexec]. rewrite Z.eqb_refl, N.
      cbn [require bind nm_meta nm_program nm_pointer]. rewrite at_mint. cbn [ok_or bind nm_auth]. rewrite is_key_refl.
      cbn [require bind n_plex put_mint]. rewrite PX, F. cbn [require bind]. rewrite at_plex.
      cbn [ok_or bind mp_authority mp_label mp_mutable]. rewrite Z.eqb_refl. cbn [require bind].
      cbn [n_mints put_plex]. rewrite at_mint. cbn [ok_or bind nm_auth]. rewrite is_key_refl. cbn [require bind]. eauto.
    - change (1 =? 0) with false. change (1 =? 1) with true. cbv iota. unfold name_2022. rewrite U, MI. cbn [bind nall nexec].
      assert (ST : storable p = true).
      { unfold storable. destruct p as [q|]; [|reflexivity]. cbn [is_key]. destruct (q =? SYSTEM) eqn:EQ; [|reflexivity].
        exfalso. apply PS. f_equal. lia. }
      assert (SC : storable (Some creator) = true) by (unfold storable; cbn [is_key]; replace (creator =? SYSTEM) with false by lia; reflexivity).
      rewrite Z.eqb_refl, N. cbn [require bind nm_meta nm_program nm_pointer]. rewrite at_mint. cbn [ok_or bind nm_auth].
      rewrite is_key_refl. cbn [require bind nm_meta nm_program nm_pointer nm_auth]. rewrite SC. cbn [require bind].
      rewrite at_mint. cbn [ok_or bind nm_pointer nm_program nm_auth nm_meta]. rewrite is_key_refl. cbn [require bind]. rewrite ST.
      cbn [require bind]. rewrite at_mint. cbn [ok_or bind nm_meta nm_program nm_auth nm_pointer]. rewrite is_key_refl. cbn [require bind].
      rewrite at_mint. cbn [ok_or bind nm_auth nm_program nm_pointer nm_meta]. rewrite is_key_refl.
      cbn [require bind]. eauto. }
  destruct E as (s1 & E). exists s1. split; [exact E|]. eapply named_shows, open_named; eauto.
Qed.

(** ** Concrete cases *)

Definition c85_l : label := mkLabel [77; 111; 111; 110] [77; 78] [104; 116; 116; 112].
Definition c85_x : label := mkLabel [83; 117; 110] [83] [].
(** Somebody tries everything on an immutable Token-2022 token; then on one that the creator 44 may change. *)
Definition c85_attack (k : Z) : list nact :=
  [AOpen 1 k 45 46 0 c85_x; AOutside (NUpdateMeta 45 k c85_x); AOutside (NMovePointer 45 k 999);
   AOutside (NUpdateMeta 7 k c85_x); AOutside (NUpdatePlex 0 k (Some c85_x) None None);
   AOutside (NCreatePlex 45 k 45 true c85_x); AOutside (NInitMint k k (mkNmint SplToken (Some 45) None None));
   AOutside (NUpdateMetaAuthority 45 k (Some 45)); AOutside (NUpdatePlex 45 k None (Some 45) (Some true))].
Example C85_case :
  let open ty opt := nact_step 7 n_empty (AOpen ty 200 44 46 opt c85_l) in
  map (fun x => shows (nrun 7 (open (fst x) (snd x)) (c85_attack 200)) 200) [(0, 1); (1, 1); (0, 0); (1, 3); (0, 4)]
  = [Some c85_l; Some c85_l; Some c85_l; Some c85_l; Some c85_l]
  /\ shows (nact_step 7 (open 1 0) (AOutside (NUpdateMeta 44 200 c85_x))) 200 = Some c85_x
  /\ shows (nact_step 7 (open 0 2) (AOutside (NUpdatePlex 46 200 (Some c85_x) None None))) 200 = Some c85_x
  /\ shows (nact_step 7 (open 0 1) (AOutside (NUpdatePlex 44 200 (Some c85_x) None None))) 200 = Some c85_l.
Proof. vm_compute. repeat split. Qed.

(** A config may appoint the all-zero key as partner: SPL pools of such a config can be opened, and nobody can
    ever rename the token; Token-2022 pools of such a config cannot be opened at all. *)
Theorem C85_zero_partner_refuted : exists partner opt creator,
  updater creator partner opt (Some partner)
  /\ (forall auth s bmint given, exists e, nact_exec auth s (AOpen 1 bmint creator partner opt given) = Err e)
  /\ (exists s1, nact_exec 7 n_empty (AOpen 0 200 creator partner opt c85_l) = Ok s1).
Proof.
  exists SYSTEM, 2, 44. split; [constructor; auto|]. split; [|eexists; vm_compute; reflexivity].
  intros auth s k l. destruct (nact_exec auth s (AOpen 1 k 44 SYSTEM 2 l)) as [s1|e] eqn:H; [|eauto]. exfalso.
  cbn [nact_exec] in H. nb H. clear H0. cbn [bind name_2022] in H. unfold name_2022 in H.
  change (get_update_authority 2 44 SYSTEM) with (Ok (Some SYSTEM)) in H. change (get_mint_authority 2 44 SYSTEM) with (@Ok (option Z) None) in H.
  change (1 =? 0) with false in H. change (1 =? 1) with true in H. cbv iota in H. cbn [bind nall] in H.
  nb H. nb H. nb H. cbn [nexec] in H2. nb H2. destruct (nm_pointer _) as [[u a]|]; [|discriminate H2]. nb H2. nb H2. discriminate.
Qed.

Print Assumptions C85_only_the_appointed.
Print Assumptions C85_immutable.
Print Assumptions C85_change_is_authorised.
Print Assumptions C85_appointed_can.
Print Assumptions C85_can_be_named.
Print Assumptions C85_zero_partner_refuted.
