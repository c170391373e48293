(** * C84: the base tokens of all holders add up to the supply.
      From the creation of a pool on, and whatever anybody does with the token programs, the balances of all
      token accounts of the base mint are non-negative and add up to the mint's supply; without a mint
      authority the supply never exceeds what the pool was created with. *)
From Coq Require Import ZArith List Bool Lia ZifyBool.
From Verif Require Import Base MathModel Lib TokenModel PropMint.
Import ListNotations.
Open Scope Z_scope.

(** ** What the theorems talk about *)

(** What account [a] holds of the token [k]. *)
Definition balance (s : tstate) (k a : Z) : Z :=
  match t_accs s a with Some x => if ta_mint x =? k then ta_amount x else 0 | None => 0 end.
Fixpoint sum (f : Z -> Z) (l : list Z) : Z := match l with [] => 0 | a :: r => f a + sum f r end.
(** [t] is the total of [f] over all accounts: only finitely many have something. *)
Definition adds_up (f : Z -> Z) (t : Z) : Prop :=
  (forall a, 0 <= f a) /\ exists holders, NoDup holders /\ (forall a, ~ In a holders -> f a = 0) /\ sum f holders = t.

(** ** Sums *)

Lemma sum_same f g l : (forall a, In a l -> f a = g a) -> sum f l = sum g l.
Proof.
  induction l as [|x l IH]; intros E; [reflexivity|]. simpl. rewrite (E x) by (left; reflexivity). rewrite IH; [reflexivity|].
  intros a I. apply E. right. exact I.
Qed.
Lemma adds_same f g t : (forall a, g a = f a) -> adds_up f t -> adds_up g t.
Proof.
  intros E (P & l & N & Z & S). split; [intros a; rewrite E; apply P|]. exists l. split; [exact N|].
  split; [intros a I; rewrite E; auto|]. rewrite <- S. apply sum_same. auto.
Qed.
Lemma sum_change f g p d l : NoDup l -> In p l -> g p = f p + d -> (forall a, a <> p -> g a = f a) -> sum g l = sum f l + d.
Proof.
  induction l as [|x l IH]; intros N I P O; [destruct I|]. inversion N as [|y r NI N1]. subst. simpl.
  destruct (Z.eq_dec x p) as [->|NE].
  - rewrite P, (sum_same g f l); [lia|]. intros a A. apply O. intros ->. contradiction.
  - destruct I as [I|I]; [contradiction|]. rewrite (O x NE), IH by auto. lia.
Qed.
Lemma adds_change f g p d t : 0 <= g p -> g p = f p + d -> (forall a, a <> p -> g a = f a) ->
  adds_up f t -> adds_up g (t + d).
Proof.
  intros G E O (P & l & N & Z & S). split.
  { intros a. destruct (Z.eq_dec a p) as [->|NE]; [exact G|]. rewrite O by auto. apply P. }
  assert (X : exists l', NoDup l' /\ In p l' /\ (forall a, ~ In a l' -> f a = 0) /\ sum f l' = t).
  { destruct (in_dec Z.eq_dec p l) as [I|I]; [exists l; auto|]. exists (p :: l).
    split; [constructor; auto|]. split; [left; reflexivity|]. split; [intros a A; apply Z; intros B; apply A; right; exact B|].
    simpl. rewrite Z by exact I. lia. }
  destruct X as (l' & N' & I' & Z' & S'). exists l'. split; [exact N'|]. split.
  - intros a A. rewrite O; [apply Z'; exact A|]. intros ->. contradiction.
  - rewrite (sum_change f g p d) by auto. lia.
Qed.
Lemma sum_le hs : forall l f, (forall a, 0 <= f a) -> NoDup l -> NoDup hs -> (forall a, ~ In a hs -> f a = 0) ->
  sum f l <= sum f hs.
Proof.
  induction hs as [|h hs IH]; intros l f P NL N Z.
  - simpl. replace (sum f l) with 0; [lia|]. clear NL. induction l as [|a l IHl]; [reflexivity|]. simpl.
    rewrite <- IHl, Z by (intros []). reflexivity.
  - simpl. inversion N as [|y r NH N1]. subst. set (g := fun a => if a =? h then 0 else f a).
    assert (A1 : sum f l <= f h + sum g l).
    { destruct (in_dec Z.eq_dec h l) as [I|I].
      - rewrite (sum_change g f h (f h) l); [lia|exact NL|exact I|unfold g; rewrite Z.eqb_refl; lia|].
        intros a A. unfold g. replace (a =? h) with false by lia. reflexivity.
      - rewrite (sum_same f g l); [pose proof (P h); lia|]. intros a A. unfold g. destruct (a =? h) eqn:E; [|reflexivity].
        assert (a = h) by lia. subst a. contradiction. }
    assert (A2 : sum g hs = sum f hs).
    { apply sum_same. intros a A. unfold g. destruct (a =? h) eqn:E; [|reflexivity]. assert (a = h) by lia. subst a. contradiction. }
    assert (A3 : sum g l <= sum g hs).
    { apply IH; auto.
      - intros a. unfold g. destruct (_ =? _); [lia|apply P].
      - intros a A. unfold g. destruct (a =? h) eqn:E; [reflexivity|]. apply Z. intros [B|B]; [lia|contradiction]. }
    lia.
Qed.

(** ** One instruction *)

(** The mint is never a wrapped native one, has no extensions that matter, and its supply is what the accounts
    hold. *)
Definition sound (s : tstate) (k : Z) : Prop :=
  exists m, t_mints s k = Some m /\ plain m /\ mi_native m = false /\ adds_up (balance s k) (mi_supply m).

Lemma balance_set s k p x a : balance (set_acc s p x) k a =
  if p =? a then (if ta_mint x =? k then ta_amount x else 0) else balance s k a.
Proof. unfold balance, set_acc, upd. cbn [t_accs]. destruct (p =? a); reflexivity. Qed.
Lemma balance_mint s q mm k a : balance (set_mint s q mm) k a = balance s k a.
Proof. reflexivity. Qed.

Lemma sound_step s o s' k : sound s k -> texec s o = Ok s' -> sound s' k.
Proof.
  intros (m & M & P & NA & AD) H.
  destruct (mints_step _ _ _ _ _ H M) as [(m' & M' & V)|X]; [|contradiction].
  destruct V as (_ & V2 & _ & V4 & _). exists m'. split; [exact M'|]. split; [auto|]. split; [congruence|]. clear V2 V4.
  assert (SAME : (forall a, balance s' k a = balance s k a) -> mi_supply m' = mi_supply m ->
                 adds_up (balance s' k) (mi_supply m')).
  { intros E ->. apply (adds_same (balance s k)); auto. }
  assert (ONE : forall p x y, t_accs s p = Some x -> ta_mint y = ta_mint x -> ta_amount y = ta_amount x ->
     forall a, balance (set_acc s p y) k a = balance s k a).
  { intros p x y X E1 E2 a. rewrite balance_set. destruct (p =? a) eqn:E; [|reflexivity].
    assert (p = a) by lia. subst a. unfold balance. rewrite X, E1, E2. reflexivity. }
  destruct o; cbn [texec] in H.
  - (* transfer *) repeat mb H. tget.
    match goal with Q : authorised _ _ _ _ = Ok _ |- _ => apply authorised_amount in Q; destruct Q as (A1 & A2 & _) end.
    match goal with Q : t_accs s src = Some _ |- _ => rename Q into XS end.
    match goal with Q : t_accs s dst = Some _ |- _ => rename Q into XD end.
    match goal with Q : t_mints s (ta_mint x0) = Some _ |- _ => rename Q into XM end.
    assert (U : 0 <= a <= U64_MAX) by (apply u64_range; assumption).
    destruct (src =? dst) eqn:SD.
    + apply Ok_inj in H. subst s'. cbn [t_mints set_acc] in M'. rewrite M in M'. injection M' as <-.
      apply SAME; [|reflexivity]. eapply ONE; eauto.
    + mb H. apply Ok_inj in H. subst s'. cbn [t_mints set_acc] in M'. rewrite M in M'. injection M' as <-.
      match goal with Q : sadd _ _ _ = Ok _ |- _ => apply sadd_ok in Q; rename Q into SA end.
      destruct (Z.eq_dec (ta_mint x0) k) as [EK|NK].
      * rewrite EK, M in XM. injection XM as <-. rewrite plain_fee in SA by auto.
        assert (EY : ta_mint x1 = k) by lia.
        pose proof (proj1 AD) as POS.
        assert (BS : balance s k src = ta_amount x0) by (unfold balance; rewrite XS, EK, Z.eqb_refl; reflexivity).
        assert (BD : balance s k dst = ta_amount x1) by (unfold balance; rewrite XD, EY, Z.eqb_refl; reflexivity).
        pose proof (POS dst) as PD.
        replace (mi_supply m) with (mi_supply m + - a + a) by lia.
        apply (adds_change (balance (set_acc s src (with_amount x6 (ta_amount x6 - a))) k) _ dst a).
        -- rewrite balance_set, Z.eqb_refl. cbn [ta_mint ta_amount with_amount]. rewrite EY, Z.eqb_refl. lia.
        -- rewrite !balance_set, Z.eqb_refl, SD. cbn [ta_mint ta_amount with_amount]. rewrite EY, Z.eqb_refl. lia.
        -- intros y Y. rewrite (balance_set _ _ dst). replace (dst =? y) with false by lia. reflexivity.
        -- apply (adds_change (balance s k) _ src (- a)).
           ++ rewrite balance_set, Z.eqb_refl. cbn [ta_mint ta_amount with_amount]. rewrite A2, EK, Z.eqb_refl. lia.
           ++ rewrite balance_set, Z.eqb_refl. cbn [ta_mint ta_amount with_amount]. rewrite A2, EK, Z.eqb_refl. lia.
           ++ intros y Y. rewrite balance_set. replace (src =? y) with false by lia. reflexivity.
           ++ exact AD.
      * apply SAME; [|reflexivity]. intros y. rewrite !balance_set. cbn [ta_mint with_amount].
        replace (ta_mint x1 =? k) with false by lia. replace (ta_mint x6 =? k) with false by lia.
        destruct (dst =? y) eqn:E1.
        { assert (dst = y) by lia. subst y. unfold balance. rewrite XD. replace (ta_mint x1 =? k) with false by lia. reflexivity. }
        destruct (src =? y) eqn:E2; [|reflexivity].
        assert (src = y) by lia. subst y. unfold balance. rewrite XS. replace (ta_mint x0 =? k) with false by lia. reflexivity.
  - (* mint_to *) repeat mb H. apply Ok_inj in H. subst s'. tget.
    assert (U : 0 <= a <= U64_MAX) by (apply u64_range; assumption).
    match goal with Q : t_accs s dst = Some _ |- _ => rename Q into XD end.
    match goal with Q : t_mints s mint = Some _ |- _ => rename Q into XM end.
    repeat match goal with Q : sadd _ _ _ = Ok _ |- _ => apply sadd_ok in Q end.
    cbn [t_mints set_acc set_mint] in M'. destruct (Z.eq_dec mint k) as [->|NK].
    + rewrite upd_same in M'. injection M' as <-. rewrite M in XM. injection XM as <-. cbn [mi_supply with_supply].
      pose proof (proj1 AD dst) as PD.
      assert (BD : balance s k dst = ta_amount x2) by (unfold balance; rewrite XD; replace (ta_mint x2 =? k) with true by lia; reflexivity).
      replace x4 with (mi_supply m + a) by lia. apply (adds_change (balance s k) _ dst a); [| | |exact AD].
      * rewrite balance_set, Z.eqb_refl. cbn [ta_mint ta_amount with_amount]. replace (ta_mint x2 =? k) with true by lia. lia.
      * rewrite balance_set, Z.eqb_refl. cbn [ta_mint ta_amount with_amount]. replace (ta_mint x2 =? k) with true by lia. lia.
      * intros y Y. rewrite balance_set. replace (dst =? y) with false by lia. reflexivity.
    + rewrite upd_other in M' by auto. rewrite M in M'. injection M' as <-. apply SAME; [|reflexivity].
      intros y. rewrite balance_set, balance_mint. cbn [ta_mint with_amount]. destruct (dst =? y) eqn:E; [|reflexivity].
      assert (dst = y) by lia. subst y. unfold balance. rewrite XD. replace (ta_mint x2 =? k) with false by lia. reflexivity.
  - (* burn *) repeat mb H. apply Ok_inj in H. subst s'. tget.
    assert (U : 0 <= a <= U64_MAX) by (apply u64_range; assumption).
    match goal with Q : authorised _ _ _ _ = Ok _ |- _ => apply authorised_amount in Q; destruct Q as (A1 & A2 & _) end.
    match goal with Q : t_accs s src = Some _ |- _ => rename Q into XS end.
    match goal with Q : t_mints s (ta_mint x0) = Some _ |- _ => rename Q into XM end.
    cbn [t_mints set_acc set_mint] in M'. destruct (Z.eq_dec (ta_mint x0) k) as [EK|NK].
    + rewrite EK, upd_same in M'. injection M' as <-. rewrite EK, M in XM. injection XM as <-. cbn [mi_supply with_supply].
      assert (BS : balance s k src = ta_amount x0) by (unfold balance; rewrite XS, EK, Z.eqb_refl; reflexivity).
      apply (adds_change (balance s k) _ src (- a)); [| | |exact AD].
      * rewrite balance_set, Z.eqb_refl. cbn [ta_mint ta_amount with_amount]. rewrite A2, EK, Z.eqb_refl. lia.
      * rewrite balance_set, Z.eqb_refl. cbn [ta_mint ta_amount with_amount]. rewrite A2, EK, Z.eqb_refl. lia.
      * intros y Y. rewrite balance_set. replace (src =? y) with false by lia. reflexivity.
    + rewrite upd_other in M' by auto. rewrite M in M'. injection M' as <-. apply SAME; [|reflexivity].
      intros y. rewrite balance_set, balance_mint. cbn [ta_mint with_amount]. rewrite A2. destruct (src =? y) eqn:E; [|reflexivity].
      assert (src = y) by lia. subst y. unfold balance. rewrite XS. reflexivity || (replace (ta_mint x0 =? k) with false by lia; reflexivity).
  - repeat mb H. apply Ok_inj in H. subst s'. tget. cbn [t_mints set_acc] in M'. rewrite M in M'. injection M' as <-.
    apply SAME; [eapply ONE; eauto|reflexivity].
  - repeat mb H. apply Ok_inj in H. subst s'. tget. cbn [t_mints set_acc] in M'. rewrite M in M'. injection M' as <-.
    apply SAME; [eapply ONE; eauto|reflexivity].
  - repeat mb H. apply Ok_inj in H. subst s'. tget. cbn [t_mints set_acc] in M'. rewrite M in M'. injection M' as <-.
    apply SAME; [eapply ONE; eauto|reflexivity].
  - repeat mb H. apply Ok_inj in H. subst s'. tget. cbn [t_mints set_acc] in M'. rewrite M in M'. injection M' as <-.
    apply SAME; [eapply ONE; eauto|reflexivity].
  - repeat mb H. apply Ok_inj in H. subst s'. tget. cbn [t_mints set_acc] in M'. rewrite M in M'. injection M' as <-.
    apply SAME; [eapply ONE; eauto|reflexivity].
  - (* close *) repeat mb H. apply Ok_inj in H. subst s'. tget. cbn [t_mints] in M'. rewrite M in M'. injection M' as <-.
    match goal with Q : t_accs s acc = Some _ |- _ => rename Q into XS end.
    match goal with Q : t_mints s (ta_mint x) = Some _ |- _ => rename Q into XM end.
    apply SAME; [|reflexivity]. intros y. unfold balance. cbn [t_accs]. unfold upd. destruct (acc =? y) eqn:E; [|reflexivity].
    assert (acc = y) by lia. subst y. rewrite XS. destruct (ta_mint x =? k) eqn:EK; [|reflexivity].
    assert (EK' : ta_mint x = k) by lia. rewrite EK', M in XM. injection XM as <-. rewrite NA in *. lia.
  - repeat mb H. apply Ok_inj in H. subst s'. tget. cbn [t_mints set_mint] in M'. apply SAME; [reflexivity|].
    destruct (Z.eq_dec mint k) as [->|NK]; [rewrite upd_same in M'|rewrite upd_other in M' by auto]; injection M' as <- || (rewrite M in M'; injection M' as <-); cbn [mi_supply]; congruence.
  - repeat mb H. apply Ok_inj in H. subst s'. tget. cbn [t_mints set_mint] in M'. apply SAME; [reflexivity|].
    destruct (Z.eq_dec mint k) as [->|NK]; [rewrite upd_same in M'|rewrite upd_other in M' by auto]; injection M' as <- || (rewrite M in M'; injection M' as <-); cbn [mi_supply]; congruence.
  - repeat mb H. apply Ok_inj in H. subst s'. tget. cbn [t_mints set_mint] in M'. apply SAME; [reflexivity|].
    destruct (Z.eq_dec mint k) as [->|NK]; [rewrite upd_same in M'|rewrite upd_other in M' by auto]; injection M' as <- || (rewrite M in M'; injection M' as <-); cbn [mi_supply with_ext]; congruence.
  - repeat mb H. apply Ok_inj in H. subst s'. tget. cbn [t_mints set_mint] in M'. apply SAME; [reflexivity|].
    destruct (Z.eq_dec mint k) as [->|NK]; [rewrite upd_same in M'; discriminate M'|rewrite upd_other in M' by auto]. congruence.
  - repeat mb H. apply Ok_inj in H. subst s'. tget. cbn [t_mints set_mint] in M'. apply SAME; [reflexivity|].
    destruct (Z.eq_dec mint k) as [->|NK]; [rewrite upd_same in M'|rewrite upd_other in M' by auto]; injection M' as <- || (rewrite M in M'; injection M' as <-); cbn [mi_supply with_ext]; congruence.
  - repeat mb H. apply Ok_inj in H. subst s'. tget. cbn [t_mints set_mint] in M'. apply SAME; [reflexivity|].
    destruct (Z.eq_dec mint k) as [->|NK]; [rewrite upd_same in M'|rewrite upd_other in M' by auto]; injection M' as <- || (rewrite M in M'; injection M' as <-); cbn [mi_supply with_ext]; congruence.
  - repeat mb H. apply Ok_inj in H. subst s'. tget. cbn [t_mints set_mint] in M'. apply SAME; [reflexivity|].
    destruct (Z.eq_dec mint k) as [->|NK]; [rewrite upd_same in M'|rewrite upd_other in M' by auto]; injection M' as <- || (rewrite M in M'; injection M' as <-); cbn [mi_supply with_ext]; congruence.
  - (* new mint *) repeat mb H. apply Ok_inj in H. subst s'. tget. cbn [t_mints set_mint] in M'. apply SAME; [reflexivity|].
    destruct (Z.eq_dec key k) as [->|NK]; [|rewrite upd_other in M' by auto; congruence].
    match goal with K : match t_mints s k with _ => _ end = true |- _ => rewrite M in K; discriminate K end.
  - (* new account *) repeat mb H. apply Ok_inj in H. subst s'. tget. cbn [t_mints set_acc] in M'. rewrite M in M'. injection M' as <-.
    apply SAME; [|reflexivity]. intros y. rewrite balance_set. cbn [ta_mint ta_amount]. destruct (key =? y) eqn:E; [|reflexivity].
    assert (key = y) by lia. subst y. unfold balance. destruct (t_accs s key) as [z|] eqn:EZ; [|destruct (mint =? k); reflexivity].
    destruct (t_mints s key); discriminate.
  - (* sync *) repeat mb H. apply Ok_inj in H. subst s'. tget. cbn [t_mints set_acc] in M'. rewrite M in M'. injection M' as <-.
    match goal with Q : t_accs s acc = Some _ |- _ => rename Q into XS end.
    match goal with Q : t_mints s (ta_mint x0) = Some _ |- _ => rename Q into XM end.
    assert (NK : ta_mint x0 <> k) by (intros EK; rewrite EK, M in XM; injection XM as <-; congruence).
    apply SAME; [|reflexivity]. intros y. rewrite balance_set. cbn [ta_mint with_amount]. replace (ta_mint x0 =? k) with false by lia.
    destruct (acc =? y) eqn:E; [|reflexivity]. assert (acc = y) by lia. subst y. unfold balance. rewrite XS.
    replace (ta_mint x0 =? k) with false by lia. reflexivity.
Qed.

Lemma sound_run ops : forall s k, sound s k -> sound (trun s ops) k.
Proof.
  induction ops as [|o ops IH]; intros s k W; [exact W|]. apply IH.
  destruct (tstep_cases s o) as [(s' & E & ->)| ->]; [eapply sound_step; eauto|exact W].
Qed.

(** Without a mint authority the supply can only shrink. *)
Lemma closed_step s o s' k m : t_mints s k = Some m -> plain m -> mi_authority m = None -> texec s o = Ok s' ->
  exists m', t_mints s' k = Some m' /\ mi_authority m' = None /\ mi_supply m' <= mi_supply m.
Proof.
  intros M P A H. destruct (mints_step _ _ _ _ _ H M) as [(m' & M' & _)|X]; [|contradiction].
  exists m'. split; [exact M'|].
  assert (SAME : t_mints s' k = t_mints s k -> mi_authority m' = None /\ mi_supply m' <= mi_supply m).
  { intros E. rewrite E, M in M'. injection M' as <-. split; [exact A|lia]. }
  destruct o; cbn [texec] in H; try (repeat mb H; apply Ok_inj in H; subst s'; apply SAME; reflexivity).
  - repeat mb H. destruct (src =? dst); [|mb H]; apply Ok_inj in H; subst s'; apply SAME; reflexivity.
  - repeat mb H. apply Ok_inj in H. subst s'. tget. destruct (Z.eq_dec mint k) as [->|N].
    + match goal with Q : t_mints s k = Some ?y |- _ => lazymatch Q with M => fail | _ => rewrite M in Q; injection Q as <- end end.
      rewrite A in *. discriminate.
    + apply SAME. cbn [t_mints set_acc set_mint]. apply upd_other. exact N.
  - repeat mb H. apply Ok_inj in H. subst s'. tget.
    assert (U : 0 <= a <= U64_MAX) by (apply u64_range; assumption).
    destruct (Z.eq_dec (ta_mint x0) k) as [E|N].
    + cbn [t_mints set_acc set_mint] in M'. rewrite E, upd_same in M'. injection M' as <-.
      match goal with Q : t_mints s (ta_mint x0) = Some _ |- _ => rewrite E, M in Q; injection Q as <- end.
      cbn [mi_authority mi_supply with_supply]. split; [exact A|lia].
    + apply SAME. cbn [t_mints set_acc set_mint]. apply upd_other. exact N.
  - repeat mb H. apply Ok_inj in H. subst s'. tget. destruct (Z.eq_dec mint k) as [->|N]; [|apply SAME; apply upd_other; exact N].
    match goal with Q : t_mints s k = Some ?y |- _ => lazymatch Q with M => fail | _ => rewrite M in Q; injection Q as <- end end.
    rewrite A in *. discriminate.
  - repeat mb H. apply Ok_inj in H. subst s'. tget. destruct (Z.eq_dec mint k) as [->|N]; [|apply SAME; apply upd_other; exact N].
    match goal with Q : t_mints s k = Some ?y |- _ => lazymatch Q with M => fail | _ => rewrite M in Q; injection Q as <- end end.
    cbn [t_mints set_mint] in M'. rewrite upd_same in M'. injection M' as <-. cbn [mi_authority mi_supply]. split; [exact A|lia].
  - repeat mb H. apply Ok_inj in H. subst s'. tget. destruct (Z.eq_dec mint k) as [->|N]; [|apply SAME; apply upd_other; exact N].
    match goal with Q : t_mints s k = Some ?y |- _ => lazymatch Q with M => fail | _ => rewrite M in Q; injection Q as <- end end.
    cbn [t_mints set_mint] in M'. rewrite upd_same in M'. injection M' as <-. cbn [mi_authority mi_supply with_ext]. split; [exact A|lia].
  - repeat mb H. apply Ok_inj in H. subst s'. tget. destruct (Z.eq_dec mint k) as [->|N]; [|apply SAME; apply upd_other; exact N].
    cbn [t_mints] in M'. rewrite upd_same in M'. discriminate M'.
  - repeat mb H. apply Ok_inj in H. subst s'. tget. destruct (Z.eq_dec mint k) as [->|N]; [|apply SAME; apply upd_other; exact N].
    match goal with Q : t_mints s k = Some ?y |- _ => lazymatch Q with M => fail | _ => rewrite M in Q; injection Q as <- end end.
    rewrite A in *. discriminate.
  - repeat mb H. apply Ok_inj in H. subst s'. tget. destruct (Z.eq_dec mint k) as [->|N]; [|apply SAME; apply upd_other; exact N].
    match goal with Q : t_mints s k = Some ?y |- _ => lazymatch Q with M => fail | _ => rewrite M in Q; injection Q as <- end end.
    rewrite A in *. discriminate.
  - repeat mb H. apply Ok_inj in H. subst s'. tget. destruct (Z.eq_dec mint k) as [->|N]; [|apply SAME; apply upd_other; exact N].
    match goal with Q : t_mints s k = Some ?y |- _ => lazymatch Q with M => fail | _ => rewrite M in Q; injection Q as <- end end.
    rewrite A in *. discriminate.
  - repeat mb H. apply Ok_inj in H. subst s'. tget. destruct (Z.eq_dec key k) as [->|N]; [|apply SAME; apply upd_other; exact N].
    match goal with K : match t_mints s k with _ => _ end = true |- _ => rewrite M in K; discriminate K end.
Qed.

Lemma closed_run ops : forall s k m, t_mints s k = Some m -> plain m -> mi_authority m = None ->
  exists m', t_mints (trun s ops) k = Some m' /\ mi_authority m' = None /\ mi_supply m' <= mi_supply m.
Proof.
  induction ops as [|o ops IH]; intros s k m M P A; [exists m; split; [exact M|split; [exact A|lia]]|].
  simpl. destruct (tstep_cases s o) as [(s' & E & ->)| ->]; [|apply IH; auto].
  destruct (mints_step _ _ _ _ _ E M) as [(m1 & M1 & V)|X]; [|contradiction].
  destruct (closed_step _ _ _ _ _ M P A E) as (m2 & M2 & A2 & S2). rewrite M1 in M2. injection M2 as <-.
  destruct (IH s' k m1 M1) as (m' & M' & A' & S').
  { apply V. exact P. }
  { exact A2. }
  exists m'. split; [exact M'|]. split; [exact A'|lia].
Qed.

(** ** C84 *)

(** [before] is any history in which the address of the base mint is not in use (and, if it ever was, nothing
    is left of that earlier token); [after] is any list of instructions, by anybody, to the token programs. *)
Theorem C84_holders_add_up : forall before ty auth bmint vault supply minter after,
  let s0 := trun t_empty before in
  let s := trun (trun s0 (base_mint_ops ty auth bmint vault supply minter)) after in
  t_mints s0 bmint = None -> t_accs s0 bmint = None -> t_mints s0 vault = None -> t_accs s0 vault = None ->
  bmint <> vault -> 0 <= supply <= U64_MAX ->
  (forall a, balance s0 bmint a = 0) ->
  exists m, t_mints s bmint = Some m
  /\ adds_up (balance s bmint) (mi_supply m)
  /\ (forall accounts, NoDup accounts -> sum (balance s bmint) accounts <= mi_supply m)
  /\ (minter = None -> mi_authority m = None /\ mi_supply m <= supply).
Proof.
  intros before ty auth bmint vault supply minter after s0 s M0 A0 M1 A1 N S B0.
  set (s1 := trun s0 (base_mint_ops ty auth bmint vault supply minter)) in *.
  destruct (C68_base_mint before ty auth bmint vault supply minter M0 A0 M1 A1 N S)
    as (m1 & X1 & _ & X2 & X3 & X4 & X5 & X6 & _ & X8). fold s0 s1 in X1, X5, X6, X8.
  destruct (accepted_plain _ _ X6) as (m2 & Y1 & PL). rewrite X1 in Y1. injection Y1 as <-.
  assert (NA : mi_native m1 = false).
  { clear - X1 M0 A0 M1 A1. destruct (mi_native m1) eqn:E; [|reflexivity]. exfalso.
    assert (G : forall ops q n, t_mints q bmint = Some n -> mi_native n = false -> plain n ->
      forall n', t_mints (trun q ops) bmint = Some n' -> mi_native n' = false).
    { intros ops q n Q1 Q2 Q3 n' Q4. destruct (plain_run ops q bmint n Q1 Q3) as (n2 & Q5 & V & _). rewrite Q4 in Q5.
      injection Q5 as <-. destruct V as (_ & V & _). congruence. }
    unfold s1, base_mint_ops in X1. destruct (ty =? 0).
    - simpl app in X1. match type of X1 with t_mints (trun s0 (?o :: ?r)) _ = _ =>
        change (trun s0 (o :: r)) with (trun (tstep s0 o) r) in X1 end.
      eapply G in X1; [congruence| | |].
      + unfold tstep. cbn [texec]. rewrite M0, A0. cbn. apply upd_same.
      + reflexivity.
      + constructor. intros e [].
    - simpl app in X1. match type of X1 with t_mints (trun s0 (?o :: ?r)) _ = _ =>
        change (trun s0 (o :: r)) with (trun (tstep s0 o) r) in X1 end.
      eapply G in X1; [congruence| | |].
      + unfold tstep. cbn [texec]. rewrite M0, A0. cbn. apply upd_same.
      + reflexivity.
      + constructor. intros e [<-|[]]. auto. }
  assert (W : sound s1 bmint).
  { exists m1. split; [exact X1|]. split; [exact PL|]. split; [exact NA|]. rewrite X3.
    assert (BV : balance s1 bmint vault = supply) by (unfold balance; rewrite X5; cbn [ta_mint ta_amount]; rewrite Z.eqb_refl; reflexivity).
    assert (BO : forall a, a <> vault -> balance s1 bmint a = 0).
    { intros a A. unfold balance. rewrite X8 by exact A. apply B0. }
    split.
    - intros a. destruct (Z.eq_dec a vault) as [->|NE]; [lia|]. rewrite BO by exact NE. lia.
    - exists [vault]. split; [constructor; [intros []|constructor]|]. split; [|simpl; lia].
      intros a A. apply BO. intros ->. apply A. left. reflexivity. }
  apply (sound_run after) in W. destruct W as (m & M & _ & _ & AD). fold s in M, AD.
  exists m. split; [exact M|]. split; [exact AD|]. split.
  - intros l L. destruct AD as (P & hs & NH & Z & <-). apply sum_le; auto.
  - intros ->. destruct (closed_run after s1 bmint m1 X1 PL X2) as (m' & M' & A' & S'). fold s in M'.
    rewrite M in M'. injection M' as <-. split; [exact A'|lia].
Qed.

(** After some trading: a holder, an approved delegate and the vault, part of the supply burned. *)
Definition c84_after : list top :=
  [TInitAccount 301 200 61; TInitAccount 302 200 62; TTransfer 7 201 301 1200 true; TApprove 61 301 63 300;
   TTransfer 63 301 302 250 true; TBurn 62 302 100; TMintTo 7 200 301 5; TCloseAccount 61 301;
   TFreeze 7 302 true; TSync 301 77; TTransfer 61 302 301 1 true].
Example C84_case :
  let s := trun (trun t_empty (base_mint_ops 1 7 200 201 5000 None)) c84_after in
  map (balance s 200) [201; 301; 302] = [3800; 950; 150]
  /\ option_map mi_supply (t_mints s 200) = Some 4900.
Proof. vm_compute. split; reflexivity. Qed.
(** With a minter the supply may grow, and the accounts still add up to it. *)
Example C84_case_minted :
  let s := trun (trun t_empty (base_mint_ops 0 7 200 201 5000 (Some 44))) [TInitAccount 301 200 61; TMintTo 44 200 301 10] in
  map (balance s 200) [201; 301] = [5000; 10] /\ option_map mi_supply (t_mints s 200) = Some 5010.
Proof. vm_compute. split; reflexivity. Qed.

Print Assumptions C84_holders_add_up.
