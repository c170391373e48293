(** * C96: instructions that write no account the other one uses can run in either order

    The runtime executes transactions in parallel when neither of them writes an account that the other
    one lists. Here: for such instructions the order makes no difference. Each of them succeeds or fails,
    with the same error, as it would without the others, and the accounts end up the same, whatever the
    schedule. In particular trades in different pools do not depend on each other. *)
From Coq Require Import ZArith List Bool Lia Permutation.
From Verif Require Import Base MathModel CurveModel FeeModel ConfigModel PoolModel TxModel SystemModel
  Lib Spec InvProofs InvReach Frame AcctModel AcctInv AcctSpec AcctStep PropAcct PropFresh PropRight Fixtures FixturesReach.
Import ListNotations.
Open Scope Z_scope.
#[local] Arguments Z.pow : simpl never.

(** ** Specification *)

(** The vaults a pool records; all the accounts that belong to a pool. *)
Definition vaults (b : bank) (pool : addr) : list addr :=
  match b_acc b pool with Some (APool p) => [pa_bvault p; pa_qvault p] | _ => [] end.
Definition family (b : bank) (pool : addr) : list addr :=
  pool :: MetaA pool :: vaults b pool
  ++ match b_acc b pool with Some (APool p) => [Ext (pa_config p)] | _ => [] end
  ++ match b_acc b (MetaA pool) with Some (AMeta _ _ (Some l)) => [AtaA Auth l] | _ => [] end.

Definition listed {A} (x : option A) : list A := match x with Some a => [a] | None => [] end.

(** The accounts an instruction may write: those the caller passes as writable, and the vaults of the pool
    (a vault that is not passed keeps its balance; it is listed to stay on the safe side). *)
Definition writes (b : bank) (i : instr) : list addr :=
  match i with
  | ICreateConfig key _ _ _ _ _ _ _ => [Ext key]
  | IInitPool c bm qm _ _ _ _ _ =>
    let pool := PoolA c (Z.max bm qm) (Z.min bm qm) in [Ext bm; pool; VaultA bm pool; VaultA qm pool]
  | ISwap a _ bv qv _ _ inp out r _ _ _ _ _ _ _ => [a; bv; qv; inp; out] ++ listed r
  | IClaimPartner a _ bv qv _ _ ta tb _ _ _ | IClaimCreator a bv qv _ _ ta tb _ _ _
  | IClaimProtocol a _ bv qv _ _ ta tb _ _ _ _ => [a; bv; qv; ta; tb]
  | IZap a _ v _ r _ _ _ _ _ => [a; v; r] ++ vaults b a
  | IPartnerSurplus a _ qv _ d _ | ICreatorSurplus a _ qv _ d _ | IMigrationFee a _ qv _ d _ _ =>
    [a; qv; d] ++ vaults b a
  | ILeftover a _ bv _ d _ => [a; bv; d] ++ vaults b a
  | IPartnerCreationFee a _ r _ => [a; r] ++ vaults b a
  | IProtocolCreationFee a _ _ _ => [a; Ext (b_treasury b)] ++ vaults b a
  | ITransferCreator a _ _ _ _ => a :: vaults b a
  | ICreateLocker a _ bv _ _ => [a; bv] ++ vaults b a
  | ICreateMetadata a _ m => [a; m] ++ vaults b a
  | IMigrateV1 a _ bv qv m l _ _ => [a; bv; qv; m; Ext l; AtaA Auth l]
  | IMigrateV2 a _ bv qv _ _ _ _ => [a; bv; qv]
  | ILockLp _ m _ s _ => [m; s]
  | IClaimLp _ m _ s d _ => [m; s; d]
  | XDeposit a _ _ | XSol a _ | XOwner _ a _ _ | XAccount a _ _ _ => [a]
  | XMint m => [Ext m]
  | ICreateOperator _ _ _ | ICloseOperator _ _ => []
  end.

(** The accounts it reads besides: the config, the mints and what belongs to the pool. *)
Definition reads (b : bank) (i : instr) : list addr :=
  match i with
  | ICreateConfig _ _ _ _ _ qm _ _ => [Ext qm]
  | IInitPool c _ qm _ _ _ _ _ => [Ext c; Ext qm]
  | ISwap a c _ _ _ _ _ _ _ _ _ _ _ _ _ _ | IClaimPartner a c _ _ _ _ _ _ _ _ _
  | IClaimProtocol a c _ _ _ _ _ _ _ _ _ _ | IZap a c _ _ _ _ _ _ _ _ | IPartnerSurplus a c _ _ _ _
  | ICreatorSurplus a c _ _ _ _ | IMigrationFee a c _ _ _ _ _ | ILeftover a c _ _ _ _
  | IPartnerCreationFee a c _ _ | IProtocolCreationFee a c _ _ | ICreateLocker a c _ _ _
  | ICreateMetadata a c _ | IMigrateV1 a c _ _ _ _ _ _ | IMigrateV2 a c _ _ _ _ _ _ => Ext c :: family b a
  | IClaimCreator a _ _ _ _ _ _ _ _ _ | ILockLp a _ _ _ _ | IClaimLp a _ _ _ _ _ => family b a
  | ITransferCreator a c _ _ m => Ext c :: family b a ++ listed m
  | XAccount _ m _ _ => [Ext m]
  | _ => []
  end.
Definition uses (b : bank) (i : instr) : list addr := writes b i ++ reads b i.

(** The two instructions that change the list of operators, which others read. *)
Definition operators (i : instr) : bool :=
  match i with ICreateOperator _ _ _ | ICloseOperator _ _ => true | _ => false end.

(** Neither writes what the other one uses. *)
Definition apart (b : bank) (i j : instr) : Prop :=
  (forall y, In y (writes b i) -> ~ In y (uses b j)) /\ (forall y, In y (writes b j) -> ~ In y (uses b i)).
Definition independent (b : bank) (i j : instr) : Prop :=
  operators i = false /\ operators j = false /\ apart b i j.
(** Any two of them. *)
Fixpoint batch (b : bank) (l : list instr) : Prop :=
  match l with [] => True | i :: r => operators i = false /\ Forall (apart b i) r /\ batch b r end.

(** Two states agree on a set of accounts; on all accounts. *)
Record alike (S : addr -> Prop) (b b' : bank) : Prop := {
  al_acc : forall y, S y -> b_acc b y = b_acc b' y;
  al_admins : b_admins b = b_admins b';
  al_ops : b_ops b = b_ops b';
  al_treasury : b_treasury b = b_treasury b' }.
Definition same_state (b b' : bank) : Prop := alike (fun _ => True) b b'.

(** The same outcome: the same error, or states that agree. *)
Definition rel (S : addr -> Prop) (x y : res bank) : Prop :=
  match x, y with Ok b, Ok b' => alike S b b' | Err e, Err e' => e = e' | _, _ => False end.

(** ** The accounts used decide the outcome *)
Lemma alike_put S b b' a x : alike S b b' -> alike S (put b a x) (put b' a x).
Proof.
  intros [A B C D]. constructor; cbn [put b_acc b_admins b_ops b_treasury]; auto.
  intros y Y. destruct (addr_dec a y); auto.
Qed.
Lemma alike_refl S b : alike S b b.
Proof. constructor; auto. Qed.
Lemma alike_sym S b b' : alike S b b' -> alike S b' b.
Proof. intros [A B C D]. constructor; auto. intros y Y. symmetry. auto. Qed.
Lemma alike_trans S a b c : alike S a b -> alike S b c -> alike S a c.
Proof. intros [A B C D] [A' B' C' D']. constructor; [|congruence..]. intros y Y. rewrite A, A'; auto. Qed.

Lemma eq_pool S b b' a : alike S b b' -> S a -> load_pool b' a = load_pool b a.
Proof. intros A Y. unfold load_pool. rewrite (al_acc _ _ _ A a Y). reflexivity. Qed.
Lemma eq_config S b b' k : alike S b b' -> S (Ext k) -> load_config b' k = load_config b k.
Proof. intros A Y. unfold load_config. rewrite (al_acc _ _ _ A _ Y). reflexivity. Qed.
Lemma eq_tok S b b' a : alike S b b' -> S a -> load_tok b' a = load_tok b a.
Proof. intros A Y. unfold load_tok. rewrite (al_acc _ _ _ A a Y). reflexivity. Qed.
Lemma eq_metal S b b' a : alike S b b' -> S a -> load_meta b' a = load_meta b a.
Proof. intros A Y. unfold load_meta. rewrite (al_acc _ _ _ A a Y). reflexivity. Qed.
Lemma eq_mint S b b' k : alike S b b' -> S (Ext k) -> load_mint b' k = load_mint b k.
Proof. intros A Y. unfold load_mint. rewrite (al_acc _ _ _ A _ Y). reflexivity. Qed.
Lemma eq_unused S b b' a : alike S b b' -> S a -> unused b' a = unused b a.
Proof. intros A Y. unfold unused. rewrite (al_acc _ _ _ A a Y). reflexivity. Qed.
Lemma eq_has S b b' a m : alike S b b' -> S a -> has_mint b' a m = has_mint b a m.
Proof. intros A Y. unfold has_mint. rewrite (eq_tok _ _ _ _ A Y). reflexivity. Qed.
Lemma eq_ata S b b' a o m : alike S b b' -> S a -> is_ata b' a o m = is_ata b a o m.
Proof. intros A Y. unfold is_ata. rewrite (eq_tok _ _ _ _ A Y). reflexivity. Qed.
Lemma eq_meta_at S b b' a : alike S b b' -> (forall y, In y (family b a) -> S y) -> meta_at b' a = meta_at b a.
Proof. intros A Y. unfold meta_at. rewrite <- (al_acc _ _ _ A (MetaA a)); [reflexivity|]. apply Y. cbn. auto. Qed.
Lemma eq_lp_at S b b' a : alike S b b' -> (forall y, In y (family b a) -> S y) -> lp_at b' a = lp_at b a.
Proof.
  intros A Y. unfold lp_at. rewrite <- (al_acc _ _ _ A (MetaA a)) by (apply Y; cbn; auto).
  destruct (b_acc b (MetaA a)) as [[| | | |m v [l|]]|] eqn:E; try reflexivity.
  rewrite <- (al_acc _ _ _ A (AtaA Auth l)); [reflexivity|]. apply Y. unfold family. rewrite E.
  cbn. right. right. apply in_or_app. right. apply in_or_app. right. cbn. auto.
Qed.
Lemma family_of b a p : load_pool b a = Ok p ->
  In (pa_bvault p) (family b a) /\ In (pa_qvault p) (family b a) /\ In (Ext (pa_config p)) (family b a).
Proof.
  unfold load_pool, family, vaults. destruct (b_acc b a) as [[| |q| |]|]; try discriminate. intros H.
  apply Ok_inj in H. subst q. cbn. repeat split; auto 8.
Qed.
Lemma vaults_of b a p : load_pool b a = Ok p -> In (pa_bvault p) (vaults b a) /\ In (pa_qvault p) (vaults b a).
Proof.
  unfold load_pool, vaults. destruct (b_acc b a) as [[| |q| |]|]; try discriminate. intros H.
  apply Ok_inj in H. subst q. cbn. auto.
Qed.

Lemma rel_credit S b b' a m n : alike S b b' -> S a -> rel S (credit b a m n) (credit b' a m n).
Proof.
  intros A Y. unfold credit. rewrite (eq_tok _ _ _ _ A Y). destruct (load_tok b a) as [[[m' o] x]|e]; [|exact eq_refl].
  cbn [bind]. destruct (samek m' m); [|exact eq_refl]. cbn [bind]. destruct (require _ _); [|exact eq_refl].
  cbn [bind]. destruct (sadd _ _ _); [|exact eq_refl]. cbn [bind rel]. apply alike_put. exact A.
Qed.
Lemma rel_debit S b b' a m s n : alike S b b' -> S a -> rel S (debit b a m s n) (debit b' a m s n).
Proof.
  intros A Y. unfold debit. rewrite (eq_tok _ _ _ _ A Y). destruct (load_tok b a) as [[[m' o] x]|e]; [|exact eq_refl].
  cbn [bind]. destruct (samek m' m); [|exact eq_refl]. cbn [bind]. destruct (same _ _); [|exact eq_refl].
  cbn [bind]. destruct (require _ _); [|exact eq_refl]. cbn [bind rel]. apply alike_put. exact A.
Qed.
Lemma rel_credit_sol S b b' a n : alike S b b' -> S a -> rel S (credit_sol b a n) (credit_sol b' a n).
Proof.
  intros A Y. unfold credit_sol. rewrite <- (al_acc _ _ _ A a Y). destruct (require _ _); [|exact eq_refl].
  cbn [bind]. destruct (b_acc b a) as [[]|]; cbn [rel]; try exact A. apply alike_put. exact A.
Qed.
Lemma take_in k : forall ds a r, take_dst k ds = Some (a, r) ->
  In a (map snd ds) /\ forall y, In y (map snd r) -> In y (map snd ds).
Proof.
  induction ds as [|[k' x] ds IH]; intros a r H; [discriminate H|]. cbn [take_dst] in H.
  match type of H with (if ?c then _ else _) = _ => destruct c end.
  - injection H as <- <-. cbn. auto.
  - destruct (take_dst k ds) as [[a1 r1]|]; [|discriminate H]. injection H as <- <-.
    destruct (IH a1 r1 eq_refl) as [P Q]. cbn. split; [auto|]. intros y [->|Y]; auto.
Qed.
Lemma rel_deliver S mo ts : forall b b' ds, alike S b b' -> (forall y, In y (map snd ds) -> S y) ->
  rel S (deliver b mo ts ds) (deliver b' mo ts ds).
Proof.
  induction ts as [|t ts IH]; intros b b' ds A Y; [exact A|]. cbn [deliver].
  destruct (leaves t); [|apply IH; assumption].
  destruct (take_dst (t_token t) ds) as [[a r]|] eqn:T; [|exact eq_refl].
  destruct (take_in _ _ _ _ T) as [P Q].
  assert (R : rel S (match t_token t with TSol => credit_sol b a (t_amount t) | k => credit b a (mo k) (t_amount t) end)
                    (match t_token t with TSol => credit_sol b' a (t_amount t) | k => credit b' a (mo k) (t_amount t) end)).
  { destruct (t_token t); [apply rel_credit|apply rel_credit|apply rel_credit_sol|apply rel_credit]; auto. }
  destruct (match t_token t with TSol => credit_sol b a (t_amount t) | k => credit b a (mo k) (t_amount t) end),
           (match t_token t with TSol => credit_sol b' a (t_amount t) | k => credit b' a (mo k) (t_amount t) end);
    cbn [rel] in R; try contradiction; cbn [bind]; [|exact R].
  apply IH; [exact R|]. auto.
Qed.
Lemma alike_stored S b b' a p bv qv w : alike S b b' -> S bv -> S qv ->
  alike S (stored b a p bv qv w) (stored b' a p bv qv w).
Proof.
  intros A B Q. unfold stored. cbv zeta.
  set (x := APool _). clearbody x. pose proof (alike_put _ _ _ a x A) as A1.
  set (b1 := put b a x) in *. set (b1' := put b' a x) in *. clearbody b1 b1'.
  rewrite <- (al_acc _ _ _ A1 bv B).
  assert (A2 : alike S (match b_acc b1 bv with Some (ATok m o _) => put b1 bv (ATok m o (w_bvault w)) | _ => b1 end)
                       (match b_acc b1 bv with Some (ATok m o _) => put b1' bv (ATok m o (w_bvault w)) | _ => b1' end)).
  { destruct (b_acc b1 bv) as [[]|]; try exact A1. apply alike_put. exact A1. }
  set (b2 := match b_acc b1 bv with Some (ATok m o _) => put b1 bv (ATok m o (w_bvault w)) | _ => b1 end) in *.
  set (b2' := match b_acc b1 bv with Some (ATok m o _) => put b1' bv (ATok m o (w_bvault w)) | _ => b1' end) in *.
  clearbody b2 b2'. rewrite <- (al_acc _ _ _ A2 qv Q).
  destruct (b_acc b2 qv) as [[]|]; try exact A2. apply alike_put. exact A2.
Qed.
Lemma rel_run_on S b b' a k bv qv m lp o : alike S b b' -> S a -> S (Ext k) -> S bv -> S qv ->
  (exists e, run_on b a k bv qv m lp o = Err e /\ run_on b' a k bv qv m lp o = Err e)
  \/ exists w b1 b1', run_on b a k bv qv m lp o = Ok (w, b1) /\ run_on b' a k bv qv m lp o = Ok (w, b1') /\ alike S b1 b1'.
Proof.
  intros A P C B Q. unfold run_on.
  rewrite (eq_pool _ _ _ _ A P), (eq_config _ _ _ _ A C), (eq_tok _ _ _ _ A B), (eq_tok _ _ _ _ A Q).
  destruct (load_pool b a) as [p|e]; [|left; exists e; split; reflexivity]. cbn [bind].
  destruct (load_config b k) as [c|e]; [|left; exists e; split; reflexivity]. cbn [bind].
  destruct (load_tok b bv) as [tb|e]; [|left; exists e; split; reflexivity]. cbn [bind].
  destruct (load_tok b qv) as [tq|e]; [|left; exists e; split; reflexivity]. cbn [bind].
  replace (loaded b' a p c (snd tb) (snd tq) m lp) with (loaded b a p c (snd tb) (snd tq) m lp)
    by (unfold loaded; rewrite (al_admins _ _ _ A), (al_ops _ _ _ A); reflexivity).
  destruct (exec _ o) as [w|e]; [|left; exists e; split; reflexivity]. cbn [bind].
  right. exists w, (stored b a p bv qv w), (stored b' a p bv qv w). split; [reflexivity|]. split; [reflexivity|].
  apply alike_stored; assumption.
Qed.

Lemma eq_lp_accounts S b b' a m l s : alike S b b' -> S a -> S m -> S s ->
  lp_accounts b' a m l s = lp_accounts b a m l s.
Proof.
  intros A P M Q. unfold lp_accounts. rewrite (eq_pool _ _ _ _ A P), (eq_metal _ _ _ _ A M).
  destruct (load_pool b a); [|reflexivity]. cbn [bind].
  destruct (load_meta b m) as [[[mm vp] ll]|]; [|reflexivity]. cbn [bind].
  destruct (ok_or ll _); [|reflexivity]. cbn [bind]. rewrite (eq_ata _ _ _ _ _ _ A Q). reflexivity.
Qed.
Lemma rel_lp_store S b b' a m l s w : alike S b b' -> rel S (lp_store b a m l s w) (lp_store b' a m l s w).
Proof.
  intros A. unfold lp_store. destruct (ok_or _ _); [|exact eq_refl]. cbn [bind rel].
  apply alike_put. apply alike_put. exact A.
Qed.

(** One step through the checks of an instruction. [A]: the states agree. *)
Ltac mem :=
  first [ assumption
        | match goal with HS : forall y, In y _ -> ?S y |- ?S _ =>
            apply HS; cbn; auto 9; fail end
        | match goal with HF : forall y, In y (family _ _) -> ?S y |- ?S _ =>
            apply HF; first [cbn; auto; fail |
              match goal with L : load_pool _ _ = Ok _ |- _ => apply (family_of _ _ _ L) end] end ].
Ltac rd A :=
  match type of A with alike ?S ?b ?b' =>
  match goal with
  | |- context [load_pool b' ?a] => rewrite (eq_pool S b b' a A) by mem
  | |- context [load_config b' ?a] => rewrite (eq_config S b b' a A) by mem
  | |- context [load_tok b' ?a] => rewrite (eq_tok S b b' a A) by mem
  | |- context [load_meta b' ?a] => rewrite (eq_metal S b b' a A) by mem
  | |- context [load_mint b' ?a] => rewrite (eq_mint S b b' a A) by mem
  | |- context [unused b' ?a] => rewrite (eq_unused S b b' a A) by mem
  | |- context [has_mint b' ?a ?m] => rewrite (eq_has S b b' a m A) by mem
  | |- context [is_ata b' ?a ?o ?m] => rewrite (eq_ata S b b' a o m A) by mem
  | HF : forall y, In y (family b ?a) -> S y |- context [meta_at b' ?a] => rewrite (eq_meta_at S b b' a A HF)
  | HF : forall y, In y (family b ?a) -> S y |- context [lp_at b' ?a] => rewrite (eq_lp_at S b b' a A HF)
  | |- context [b_treasury b'] => rewrite <- (al_treasury S b b' A)
  | |- context [b_admins b'] => rewrite <- (al_admins S b b' A)
  | |- context [b_ops b'] => rewrite <- (al_ops S b b' A)
  end end.
Ltac st A :=
  repeat rd A;
  match goal with
  | |- rel _ (bind (run_on ?b ?a ?k ?bv ?qv ?m ?lp ?o) _) _ =>
      let E := fresh "E" in let E' := fresh "E" in let e := fresh "e" in let w := fresh "w" in
      let b1 := fresh "b1" in let b1' := fresh "b1'" in let A1 := fresh "A1" in
      destruct (rel_run_on _ _ _ a k bv qv m lp o A) as [(e & E & E')|(w & b1 & b1' & E & E' & A1)];
      [mem|mem|mem|mem|rewrite E, E'; exact eq_refl|rewrite E, E'; cbn [bind fst snd]]
  | |- rel _ (bind (load_pool ?b ?a) _) (bind (load_pool ?b ?a) _) =>
      let p := fresh "p" in let L := fresh "L" in
      destruct (load_pool b a) as [p|] eqn:L; [|exact eq_refl]; cbn [bind]
  | |- rel _ (bind ?x _) (bind ?x _) =>
      let v := fresh "v" in destruct x as [v|]; [|exact eq_refl]; cbn [bind]
  | |- rel _ (let '(_, _) := ?x in _) _ => destruct x
  | |- rel _ (deliver _ _ _ _) (deliver _ _ _ _) => apply rel_deliver; [assumption|]
  | |- rel _ (Ok _) (Ok _) => cbn [rel snd]; repeat apply alike_put; assumption
  end.

(** What the footprint of an instruction on a pool contains. *)
Ltac foot b pool :=
  match goal with HS : forall y, In y (uses b ?i) -> ?S y |- _ =>
    assert (HF : forall y, In y (family b pool) -> S y)
      by (intros ? ?; apply HS; unfold uses; apply in_or_app; right; cbn [reads];
          first [assumption | right; assumption | right; apply in_or_app; left; assumption]);
    assert (HP : S pool) by (apply HF; cbn; auto);
    assert (W : forall y, In y (writes b i) -> S y)
      by (intros ? ?; apply HS; unfold uses; apply in_or_app; left; assumption);
    try match goal with config : Z |- _ =>
      assert (HC : S (Ext config)) by (apply HS; unfold uses; apply in_or_app; right; cbn [reads]; left; reflexivity) end;
    clear HS; cbn [writes] in W
  end.
Ltac dst W := cbn [map snd In]; intros ? ?;
  repeat match goal with H : _ \/ _ |- _ => destruct H as [<-|H] end; try contradiction; apply W; cbn; auto 8.

Lemma outcome S b b' i : operators i = false -> alike S b b' -> (forall y, In y (uses b i) -> S y) ->
  rel S (ix b i) (ix b' i).
Proof.
  intros O A HS.
  destruct i; try discriminate O; cbn [ix].
  - unfold exec_config. repeat st A.
  - unfold exec_init. cbv zeta. do 5 st A.
    match goal with |- rel _ (bind (require (unused ?x ?a) _) _) (bind (require (unused ?y ?a) _) _) =>
      assert (A1 : alike S x y) by (apply alike_put; exact A) end.
    rewrite (eq_unused _ _ _ _ A1) by mem. destruct (require _ _); [|exact eq_refl]. cbn [bind].
    match goal with |- rel _ (bind (require (unused ?x ?a) _) _) (bind (require (unused ?y ?a) _) _) =>
      assert (A2 : alike S x y) by (apply alike_put; exact A1) end.
    rewrite (eq_unused _ _ _ _ A2) by mem. destruct (require _ _); [|exact eq_refl]. cbn [bind].
    match goal with |- rel _ (bind (require (unused ?x ?a) _) _) (bind (require (unused ?y ?a) _) _) =>
      assert (A3 : alike S x y) by (apply alike_put; exact A2) end.
    rewrite (eq_unused _ _ _ _ A3) by mem. destruct (require _ _); [|exact eq_refl]. cbn [bind].
    apply alike_put; exact A3.
  - (* swap *)
    foot b pool. assert (HR : forall r, referral = Some r -> S r) by (intros r ->; apply W; cbn; auto 8).
    assert (HI : S inp) by (apply W; cbn; auto). unfold exec_swap. do 10 st A.
    set (o := OSwap _). clearbody o.
    assert (R : match referral with Some r => do _ <- load_tok b' r ;; Ok tt | None => Ok tt end
                = match referral with Some r => do _ <- load_tok b r ;; Ok tt | None => Ok tt end).
    { destruct referral as [r|]; [|reflexivity]. rewrite (eq_tok _ _ _ _ A (HR r eq_refl)). reflexivity. }
    rewrite R. clear R. destruct (match referral with Some r => _ | None => _ end); [|exact eq_refl]. cbn [bind].
    st A. set (d := match (if _ =? bmint then _ else _) with BaseToQuote => bmint | QuoteToBase => qmint end). clearbody d.
    pose proof (rel_debit S b1 b1' inp d signer (taken (w_log w)) A1 HI) as R.
    destruct (debit b1 _ _ _ _), (debit b1' _ _ _ _); cbn [rel] in R; try contradiction; cbn [bind]; [|exact R].
    apply rel_deliver; [exact R|]. intros y Y. cbn [map] in Y.
    destruct Y as [Y|Y]; [destruct (_ =? bmint); cbn in Y; subst y; apply W; cbn; auto 8|].
    destruct referral as [r|]; [|contradiction]. cbn in Y. apply HR. destruct Y as [->|[->|[]]]; reflexivity.
  - foot b pool. unfold exec_claim_partner. repeat st A. dst W.
  - foot b pool. unfold exec_claim_creator. repeat st A. dst W.
  - foot b pool. unfold exec_claim_protocol. do 11 st A. assert (S ta /\ S tb) as [? ?] by (split; apply W; cbn; auto 8).
    repeat st A. dst W.
  - foot b pool. unfold exec_zap. do 6 st A. cbv zeta. destruct (mint =? _); repeat st A; dst W.
  - foot b pool. unfold exec_quote_payout. repeat st A. dst W.
  - foot b pool. unfold exec_quote_payout. repeat st A. dst W.
  - foot b pool. unfold exec_quote_payout. repeat st A. dst W.
  - foot b pool. unfold exec_leftover. repeat st A. dst W.
  - foot b pool. unfold exec_partner_creation. repeat st A. dst W.
  - foot b pool. unfold exec_protocol_creation. repeat st A. dst W.
  - assert (HM : forall x, meta = Some x -> S x).
    { intros x ->. apply HS. unfold uses. apply in_or_app. right. right. apply in_or_app. right. cbn. auto. }
    foot b pool. unfold exec_transfer_creator. do 3 st A.
    assert (R : ok_or meta EInvalidAccount = Err EInvalidAccount
             \/ exists x, ok_or meta EInvalidAccount = Ok x /\ load_meta b' x = load_meta b x).
    { destruct meta as [x|]; [|left; reflexivity]. right. exists x. split; [reflexivity|].
      apply (eq_metal S); auto. }
    destruct (_ && _); cbn [bind].
    + destruct R as [R|(x & R & M)]; rewrite R; cbn [bind]; [exact eq_refl|]. rewrite M.
      destruct (load_meta b x) as [[[mm vp] ll]|]; [|exact eq_refl]. cbn [bind].
      destruct (same vp pool); [|exact eq_refl]. cbn [bind]. repeat st A.
    + repeat st A.
  - foot b pool. unfold exec_locker. repeat st A.
  - foot b pool. unfold exec_metadata. repeat st A.
  - foot b pool. unfold exec_migrate_v1. repeat st A.
  - foot b pool. unfold exec_migrate_v2. repeat st A.
  - foot b pool. assert (S meta /\ S source) as [HM HO] by (split; apply W; cbn; auto). unfold exec_lock_lp.
    rewrite (eq_lp_accounts S b b' pool meta lp_mint source A HP HM HO). repeat st A. apply rel_lp_store. exact A.
  - foot b pool. assert (S meta /\ S source /\ S dst) as (HM & HO & HD) by (repeat split; apply W; cbn; auto).
    unfold exec_claim_lp.
    rewrite (eq_lp_accounts S b b' pool meta lp_mint source A HP HM HO). do 5 st A.
    pose proof (rel_lp_store S b b' pool meta lp_mint source w A) as R.
    destruct (lp_store b _ _ _ _ _), (lp_store b' _ _ _ _ _); cbn [rel] in R; try contradiction; cbn [bind]; [|exact R].
    apply rel_deliver; [exact R|]. dst W.
  - apply rel_credit; [exact A|mem].
  - apply rel_credit_sol; [exact A|mem].
  - unfold exec_owner. repeat st A.
  - repeat st A.
  - unfold exec_account. repeat st A.
Qed.

(** ** Nothing else is written *)
Lemma keep_put (S : addr -> Prop) b0 b a x : alike S b0 b -> ~ S a -> alike S b0 (put b a x).
Proof.
  intros A N. eapply alike_trans; [exact A|]. constructor; cbn [put b_acc b_admins b_ops b_treasury]; auto.
  intros y Y. destruct (addr_dec a y) as [->|]; [contradiction|reflexivity].
Qed.
Lemma keep_credit (S : addr -> Prop) b0 b a m n b' : alike S b0 b -> credit b a m n = Ok b' -> ~ S a -> alike S b0 b'.
Proof.
  intros A H N. unfold credit in H. apply bind_ok in H. destruct H as ([[m' o] x] & _ & H).
  do 3 (apply bind_ok in H; destruct H as (? & _ & H)). apply Ok_inj in H. subst b'. apply keep_put; assumption.
Qed.
Lemma keep_debit (S : addr -> Prop) b0 b a m s n b' : alike S b0 b -> debit b a m s n = Ok b' -> ~ S a -> alike S b0 b'.
Proof.
  intros A H N. unfold debit in H. apply bind_ok in H. destruct H as ([[m' o] x] & _ & H).
  do 3 (apply bind_ok in H; destruct H as (? & _ & H)). apply Ok_inj in H. subst b'. apply keep_put; assumption.
Qed.
Lemma keep_credit_sol (S : addr -> Prop) b0 b a n b' : alike S b0 b -> credit_sol b a n = Ok b' -> ~ S a -> alike S b0 b'.
Proof.
  intros A H N. unfold credit_sol in H. apply bind_ok in H. destruct H as (? & _ & H).
  destruct (b_acc b a) as [[]|]; apply Ok_inj in H; subst b'; try exact A. apply keep_put; assumption.
Qed.
Lemma keep_deliver (S : addr -> Prop) b0 mo ts : forall b ds b', alike S b0 b -> deliver b mo ts ds = Ok b' ->
  (forall y, In y (map snd ds) -> ~ S y) -> alike S b0 b'.
Proof.
  induction ts as [|t ts IH]; intros b ds b' A H N; cbn [deliver] in H.
  - apply Ok_inj in H. subst b'. exact A.
  - destruct (leaves t); [|eapply IH; eassumption].
    destruct (take_dst (t_token t) ds) as [[a r]|] eqn:T; [|discriminate H].
    destruct (take_in _ _ _ _ T) as [P Q]. apply bind_ok in H. destruct H as (b1 & E & H).
    apply (IH b1 r b'); [|exact H|auto].
    destruct (t_token t); [eapply keep_credit|eapply keep_credit|eapply keep_credit_sol|eapply keep_credit]; eauto.
Qed.
Lemma keep_stored (S : addr -> Prop) b0 b a p bv qv w : alike S b0 b -> ~ S a -> ~ S bv -> ~ S qv ->
  alike S b0 (stored b a p bv qv w).
Proof.
  intros A P B Q. unfold stored. cbv zeta.
  set (x := APool _). clearbody x. pose proof (keep_put _ _ _ a x A P) as A1.
  set (b1 := put b a x) in *. clearbody b1.
  assert (A2 : alike S b0 (match b_acc b1 bv with Some (ATok m o _) => put b1 bv (ATok m o (w_bvault w)) | _ => b1 end)).
  { destruct (b_acc b1 bv) as [[]|]; try exact A1. apply keep_put; assumption. }
  set (b2 := match b_acc b1 bv with Some (ATok m o _) => put b1 bv (ATok m o (w_bvault w)) | _ => b1 end) in *.
  clearbody b2. destruct (b_acc b2 qv) as [[]|]; try exact A2. apply keep_put; assumption.
Qed.
Lemma keep_run_on (S : addr -> Prop) b a k bv qv m lp o w b1 : run_on b a k bv qv m lp o = Ok (w, b1) ->
  ~ S a -> ~ S bv -> ~ S qv -> alike S b b1.
Proof.
  intros H P B Q. unfold run_on in H. apply bind_ok in H. destruct H as (p & _ & H).
  do 4 (apply bind_ok in H; destruct H as (? & _ & H)). apply Ok_inj in H. apply pair_inj in H. destruct H as [_ <-].
  apply keep_stored; try assumption. apply alike_refl.
Qed.
Lemma keep_lp_store (S : addr -> Prop) b a m l s w b' : lp_store b a m l s w = Ok b' -> ~ S m -> ~ S s -> alike S b b'.
Proof.
  intros H M N. unfold lp_store in H. apply bind_ok in H. destruct H as (? & _ & H). apply Ok_inj in H. subst b'.
  apply keep_put; [|exact N]. apply keep_put; [apply alike_refl|exact M].
Qed.

Ltac nw :=
  match goal with
  | W : forall y, In y _ -> ~ ?S y |- ~ ?S _ =>
      apply W; first [ cbn; auto 9; fail
                     | cbn; repeat right; 
                       match goal with L : load_pool _ _ = Ok _ |- _ => apply (vaults_of _ _ _ L) end ]
  end.
Ltac wst :=
  match goal with
  | H : bind (load_pool ?b ?a) _ = Ok _ |- _ =>
      let p := fresh "p" in let L := fresh "L" in apply bind_ok in H; destruct H as (p & L & H)
  | H : bind (run_on _ _ _ _ _ _ _ _) _ = Ok _ |- _ =>
      let w := fresh "w" in let b1 := fresh "b1" in let R := fresh "R" in
      apply bind_ok in H; destruct H as ([w b1] & R & H); cbn [fst snd] in H;
      first [apply (keep_run_on (fun y => ~ In y _)) in R | idtac]
  | H : bind (debit _ _ _ _ _) _ = Ok _ |- _ =>
      let v := fresh "b2" in let D := fresh "D" in apply bind_ok in H; destruct H as (v & D & H)
  | H : bind (lp_store _ _ _ _ _ _) _ = Ok _ |- _ =>
      let v := fresh "b2" in let D := fresh "D" in apply bind_ok in H; destruct H as (v & D & H)
  | H : bind ?x _ = Ok _ |- _ =>
      let v := fresh "v" in apply bind_ok in H; destruct H as (v & _ & H)
  | H : (let '(_, _) := ?x in _) = Ok _ |- _ => destruct x
  end.
Ltac paid H :=
  match goal with R : run_on _ _ _ _ _ _ _ _ = Ok _, A : alike ?S _ _ |- _ =>
    apply (keep_run_on S) in R; [|nw|nw|nw];
    eapply keep_deliver; [exact R|exact H|]; cbn [map snd In]; intros ? ?;
    repeat match goal with H : _ \/ _ |- _ => destruct H as [<-|H] end; try contradiction; nw
  end.
Ltac moved_on H :=
  match goal with R : run_on _ _ _ _ _ _ _ _ = Ok _, A : alike ?S _ _ |- _ =>
    apply (keep_run_on S) in R; [|nw|nw|nw]; apply Ok_inj in H; cbn [snd] in H; subst;
    repeat (apply keep_put; [|nw]); exact R
  end.
Lemma written (S : addr -> Prop) b i b' : operators i = false -> ix b i = Ok b' ->
  (forall y, In y (writes b i) -> ~ S y) -> alike S b b'.
Proof.
  intros O H W. pose proof (alike_refl S b) as A.
  destruct i; try discriminate O; cbn [ix] in H; cbn [writes] in W.
  - unfold exec_config in H. repeat wst. apply Ok_inj in H. subst b'. apply keep_put; [exact A|nw].
  - unfold exec_init in H. cbv zeta in H. repeat wst. apply Ok_inj in H. subst b'.
    repeat (apply keep_put; [|nw]). exact A.
  - unfold exec_swap in H. do 10 wst. cbv zeta in H. repeat wst.
    apply (keep_run_on S) in R; [|nw|nw|nw]. eapply (keep_debit S b) in D; [|exact R|nw].
    eapply keep_deliver; [exact D|exact H|]. intros y Y. cbn [map] in Y.
    destruct Y as [Y|Y]; [destruct (_ =? bmint); cbn in Y; subst y; nw|].
    destruct referral as [r|]; [|contradiction]. cbn in Y. apply W. cbn.
    destruct Y as [->|[->|[]]]; auto 9.
  - unfold exec_claim_partner in H. repeat wst. paid H.
  - unfold exec_claim_creator in H. repeat wst. paid H.
  - unfold exec_claim_protocol in H. repeat wst. paid H.
  - unfold exec_zap in H. cbv zeta in H. repeat wst.
    destruct (mint =? _); paid H.
  - unfold exec_quote_payout in H. repeat wst. paid H.
  - unfold exec_quote_payout in H. repeat wst. paid H.
  - unfold exec_quote_payout in H. repeat wst. paid H.
  - unfold exec_leftover in H. repeat wst. paid H.
  - unfold exec_partner_creation in H. repeat wst. paid H.
  - unfold exec_protocol_creation in H. repeat wst. paid H.
  - unfold exec_transfer_creator in H. repeat wst. moved_on H.
  - unfold exec_locker in H. repeat wst. moved_on H.
  - unfold exec_metadata in H. repeat wst. moved_on H.
  - unfold exec_migrate_v1 in H. repeat wst. moved_on H.
  - unfold exec_migrate_v2 in H. repeat wst. moved_on H.
  - unfold exec_lock_lp in H. repeat wst. eapply keep_lp_store; [exact H|nw|nw].
  - unfold exec_claim_lp in H. repeat wst. apply (keep_lp_store S) in D; [|nw|nw].
    eapply keep_deliver; [exact D|exact H|]. cbn [map snd In]. intros y [<-|[]]. nw.
  - eapply keep_credit; [exact A|exact H|nw].
  - eapply keep_credit_sol; [exact A|exact H|nw].
  - unfold exec_owner in H. repeat wst. apply Ok_inj in H. subst b'. apply keep_put; [exact A|nw].
  - repeat wst. apply Ok_inj in H. subst b'. apply keep_put; [exact A|nw].
  - unfold exec_account in H. repeat wst. apply Ok_inj in H. subst b'. apply keep_put; [exact A|nw].
Qed.

(** ** Two instructions *)
Lemma vaults_eq S b b' a : alike S b b' -> S a -> vaults b' a = vaults b a.
Proof. intros A Y. unfold vaults. rewrite (al_acc _ _ _ A a Y). reflexivity. Qed.
Lemma family_eq S b b' a : alike S b b' -> S a -> S (MetaA a) -> family b' a = family b a.
Proof.
  intros A Y Z. unfold family. rewrite (vaults_eq _ _ _ _ A Y), (al_acc _ _ _ A a Y), (al_acc _ _ _ A _ Z). reflexivity.
Qed.
Lemma footprint S b b' i : alike S b b' -> (forall y, In y (uses b i) -> S y) ->
  writes b' i = writes b i /\ uses b' i = uses b i.
Proof.
  intros A HS.
  assert (G : writes b' i = writes b i /\ reads b' i = reads b i).
  { destruct i; try (split; reflexivity);
      try (assert (P : S pool) by (apply HS; unfold uses; apply in_or_app; right; cbn; auto 9);
           assert (M : S (MetaA pool)) by (apply HS; unfold uses; apply in_or_app; right; cbn; auto 9);
           pose proof (vaults_eq _ _ _ _ A P) as V; pose proof (family_eq _ _ _ _ A P M) as F;
           pose proof (al_treasury _ _ _ A) as Tr;
           cbn [writes reads]; rewrite ?V, ?F, ?Tr; split; reflexivity). }
  unfold uses. destruct G as [-> ->]. split; reflexivity.
Qed.

(** An instruction with a different footprint leaves the accounts of the other one alone. *)
Lemma step_keeps b i (S : addr -> Prop) : operators i = false -> (forall y, In y (writes b i) -> ~ S y) ->
  alike S b (bstep b i).
Proof.
  intros O W. unfold bstep. destruct (ix b i) as [b'|e] eqn:E; [|apply alike_refl]. exact (written S b i b' O E W).
Qed.
Lemma step_alike S b b' i : operators i = false -> alike S b b' -> (forall y, In y (uses b i) -> S y) ->
  alike S (bstep b i) (bstep b' i).
Proof.
  intros O A U. pose proof (outcome S b b' i O A U) as R. unfold bstep.
  destruct (ix b i), (ix b' i); cbn [rel] in R; try contradiction; assumption.
Qed.

(** The outcome of an instruction is the same, success or error, whether or not the other one ran before;
    and its effect on every account that the other one does not write is the same. *)
Theorem C96_same_outcome : forall b i j, independent b i j ->
  rel (fun y => ~ In y (writes b i)) (ix b j) (ix (bstep b i) j).
Proof.
  intros b i j (Oi & Oj & Wi & Wj). apply outcome; [exact Oj| |].
  - apply step_keeps; [exact Oi|]. intros y Y N. exact (N Y).
  - intros y Y N. exact (Wi y N Y).
Qed.

(** In either order the accounts end up the same. *)
Theorem C96_order_does_not_matter : forall b i j, independent b i j ->
  same_state (bstep (bstep b i) j) (bstep (bstep b j) i).
Proof.
  intros b i j (Oi & Oj & Wi & Wj).
  pose (Si := fun y => ~ In y (writes b i)). pose (Sj := fun y => ~ In y (writes b j)).
  assert (Ai : alike Si b (bstep b i)) by (apply step_keeps; [exact Oi|]; intros y Y N; exact (N Y)).
  assert (Aj : alike Sj b (bstep b j)) by (apply step_keeps; [exact Oj|]; intros y Y N; exact (N Y)).
  assert (Ui : forall y, In y (uses b i) -> Sj y) by (intros y Y N; exact (Wj y N Y)).
  assert (Uj : forall y, In y (uses b j) -> Si y) by (intros y Y N; exact (Wi y N Y)).
  (* after i, j does what it would have done *)
  pose proof (step_alike Si b (bstep b i) j Oj Ai Uj) as Bj.
  pose proof (step_alike Sj b (bstep b j) i Oi Aj Ui) as Bi.
  destruct (footprint Si b (bstep b i) j Ai Uj) as [Ej _].
  destruct (footprint Sj b (bstep b j) i Aj Ui) as [Ei _].
  assert (Cj : alike Sj (bstep b i) (bstep (bstep b i) j)).
  { apply step_keeps; [exact Oj|]. rewrite Ej. intros y Y N. exact (N Y). }
  assert (Ci : alike Si (bstep b j) (bstep (bstep b j) i)).
  { apply step_keeps; [exact Oi|]. rewrite Ei. intros y Y N. exact (N Y). }
  constructor.
  - intros y _. destruct (in_dec addr_dec y (writes b j)) as [Y|Y].
    + assert (N : Si y). { apply Uj. unfold uses. apply in_or_app. left. exact Y. }
      rewrite <- (al_acc _ _ _ Bj y N). exact (al_acc _ _ _ Ci y N).
    + rewrite <- (al_acc _ _ _ Cj y Y). exact (al_acc _ _ _ Bi y Y).
  - rewrite <- (al_admins _ _ _ Cj). exact (al_admins _ _ _ Bi).
  - rewrite <- (al_ops _ _ _ Cj). exact (al_ops _ _ _ Bi).
  - rewrite <- (al_treasury _ _ _ Cj). exact (al_treasury _ _ _ Bi).
Qed.

(** ** Schedules *)
Lemma run_same l : forall b b', Forall (fun i => operators i = false) l -> same_state b b' ->
  same_state (brun b l) (brun b' l).
Proof.
  induction l as [|i l IH]; intros b b' O A; [exact A|]. inversion O as [|? ? Oi Ol]; subst. cbn [brun fold_left].
  apply IH; [exact Ol|]. apply step_alike; auto.
Qed.
Lemma batch_ops b l : batch b l -> Forall (fun i => operators i = false) l.
Proof. induction l as [|i l IH]; intros B; [constructor|]. destruct B as (O & _ & B). constructor; auto. Qed.

Lemma apart_after b i j k : operators i = false -> apart b i j -> apart b i k -> apart b j k -> apart (bstep b i) j k.
Proof.
  intros O [J _] [K _] [P Q].
  assert (Ai : alike (fun y => ~ In y (writes b i)) b (bstep b i)) by (apply step_keeps; [exact O|]; intros y Y N; exact (N Y)).
  destruct (footprint _ b (bstep b i) j Ai) as [Wj Uj]; [intros y Y N; exact (J y N Y)|].
  destruct (footprint _ b (bstep b i) k Ai) as [Wk Uk]; [intros y Y N; exact (K y N Y)|].
  unfold apart. rewrite Wj, Uj, Wk, Uk. split; assumption.
Qed.
Lemma batch_after b i l : operators i = false -> Forall (apart b i) l -> batch b l -> batch (bstep b i) l.
Proof.
  intros O. induction l as [|j l IH]; intros F B; [exact Logic.I|].
  inversion F as [|? ? Fj Fl]; subst. destruct B as (Oj & Bj & B). cbn [batch]. split; [exact Oj|]. split; [|auto].
  rewrite Forall_forall in *. intros k K. apply apart_after; auto.
Qed.
Lemma apart_sym b i j : apart b i j -> apart b j i.
Proof. intros [P Q]. split; assumption. Qed.
Lemma batch_perm b l l' : Permutation l l' -> batch b l -> batch b l'.
Proof.
  intros P. induction P as [|x l l' P IH|x y l|l l' l'' P IH P' IH']; intros B; auto.
  - destruct B as (O & F & B). cbn [batch]. split; [exact O|]. split; [|auto]. exact (Permutation_Forall P F).
  - destruct B as (Oy & Fy & Ox & Fx & B). inversion Fy as [|? ? Yx Yl]; subst.
    cbn [batch]. split; [exact Ox|]. split; [constructor; [apply apart_sym; exact Yx|exact Fx]|].
    split; [exact Oy|]. split; [exact Yl|exact B].
Qed.

(** Whatever order a batch of such instructions is executed in, the accounts end up the same. *)
Theorem C96_any_schedule : forall l l', Permutation l l' -> forall b, batch b l -> same_state (brun b l) (brun b l').
Proof.
  intros l l' P. induction P as [|x l l' P IH|x y l|l l' l'' P IH P' IH']; intros b B.
  - apply alike_refl.
  - destruct B as (O & F & B). cbn [brun fold_left]. apply (IH (bstep b x)). apply batch_after; assumption.
  - destruct B as (Oy & Fy & Ox & Fx & B). inversion Fy as [|? ? Yx Yl]; subst. cbn [brun fold_left].
    apply run_same; [exact (batch_ops b l B)|]. apply C96_order_does_not_matter. split; [exact Oy|]. split; [exact Ox|exact Yx].
  - eapply alike_trans; [apply IH; exact B|]. apply IH'. exact (batch_perm b l l' P B).
Qed.

(** ** Trades in different pools *)

(** A token account that belongs to somebody outside the program. *)
Definition wallet (b : bank) (y : addr) : Prop := exists m k n, b_acc b y = Some (ATok m (Ext k) n).

(** What the accounts used by a trade hold; the pool's own are not wallets. *)
Lemma not_wallet b y x : wallet b y -> b_acc b y = Some x ->
  match x with ATok _ (Ext _) _ => True | _ => False end.
Proof. intros (m & k & n & E) H. rewrite E in H. apply Some_inj in H. subst x. exact Logic.I. Qed.

Lemma trade_uses b a p bm qm inp out r s mode a0 a1 slot now v y :
  binv b -> b_acc b a = Some (APool p) ->
  In y (uses b (ISwap a (pa_config p) (pa_bvault p) (pa_qvault p) bm qm inp out r s mode a0 a1 slot now v)) ->
  In y ([inp; out] ++ listed r)
  \/ y = a \/ (exists m, y = VaultA m a /\ exists n, b_acc b y = Some (ATok m Auth n)) \/ y = MetaA a
  \/ (exists c, b_acc b y = Some (AConfig c))
  \/ exists m l, b_acc b (MetaA a) = Some (AMeta m a (Some l)) /\ y = AtaA Auth l /\ exists n, b_acc b y = Some (ATok l Auth n).
Proof.
  intros I P Y.
  destruct (bi_pool _ I _ _ P) as (c & nb & nq & w & EC & EA & EB & EQ & _ & TB & TQ & _).
  unfold uses in Y. apply in_app_or in Y. destruct Y as [Y|Y].
  - cbn [writes app In] in Y. destruct Y as [<-|[<-|[<-|Y]]].
    + auto.
    + right. right. left. exists (pa_bmint p). split; [exact EB|]. exists nb. exact TB.
    + right. right. left. exists (c_quote_mint c). split; [exact EQ|]. exists nq. exact TQ.
    + left. exact Y.
  - cbn [reads In] in Y. destruct Y as [<-|Y]; [right; right; right; right; left; exists c; exact EC|].
    unfold family, vaults in Y. rewrite P in Y. cbn [app In] in Y.
    destruct Y as [<-|[<-|[<-|[<-|[<-|Y]]]]].
    + auto.
    + auto 6.
    + right. right. left. exists (pa_bmint p). split; [exact EB|]. exists nb. exact TB.
    + right. right. left. exists (c_quote_mint c). split; [exact EQ|]. exists nq. exact TQ.
    + right. right. right. right. left. exists c. exact EC.
    + destruct (b_acc b (MetaA a)) as [[| | | |m vp [l|]]|] eqn:M; cbn [In] in Y; try contradiction.
      destruct Y as [<-|[]]. destruct (bi_meta _ I _ _ _ _ M) as (X & _ & L). injection X as <-.
      right. right. right. right. right. exists m, l. split; [reflexivity|]. split; [reflexivity|].
      destruct (L l eq_refl) as [n N]. exists n. exact N.
Qed.

Lemma trade_writes b a p bm qm inp out r s mode a0 a1 slot now v y :
  binv b -> b_acc b a = Some (APool p) ->
  In y (writes b (ISwap a (pa_config p) (pa_bvault p) (pa_qvault p) bm qm inp out r s mode a0 a1 slot now v)) ->
  In y ([inp; out] ++ listed r) \/ y = a \/ (exists m, y = VaultA m a /\ exists n, b_acc b y = Some (ATok m Auth n)).
Proof.
  intros I P Y.
  destruct (bi_pool _ I _ _ P) as (c & nb & nq & w & EC & EA & EB & EQ & _ & TB & TQ & _).
  cbn [writes app In] in Y. destruct Y as [<-|[<-|[<-|Y]]]; auto.
  - right. right. exists (pa_bmint p). split; [exact EB|]. exists nb. exact TB.
  - right. right. exists (c_quote_mint c). split; [exact EQ|]. exists nq. exact TQ.
Qed.

Lemma trades_apart b a p a' p' bm qm inp out r s mode a0 a1 slot now v bm' qm' inp' out' r' s' mode' a0' a1' slot' now' v' y :
  history b -> b_acc b a = Some (APool p) -> b_acc b a' = Some (APool p') -> a <> a' ->
  (forall y, In y ([inp; out] ++ listed r) -> wallet b y) -> (forall y, In y ([inp'; out'] ++ listed r') -> wallet b y) ->
  (forall y, In y ([inp; out] ++ listed r) -> ~ In y ([inp'; out'] ++ listed r')) ->
  In y (writes b (ISwap a (pa_config p) (pa_bvault p) (pa_qvault p) bm qm inp out r s mode a0 a1 slot now v)) ->
  In y (uses b (ISwap a' (pa_config p') (pa_bvault p') (pa_qvault p') bm' qm' inp' out' r' s' mode' a0' a1' slot' now' v')) ->
  False.
Proof.
  intros HB P P' N M T D Y U. pose proof (history_binv b HB) as I.
  destruct (bi_pool _ I _ _ P) as (c & _ & _ & _ & _ & EA & _).
  destruct (bi_pool _ I _ _ P') as (c' & _ & _ & _ & _ & EA' & _).
  apply (trade_writes b a p _ _ _ _ _ _ _ _ _ _ _ _ y I P) in Y.
  apply (trade_uses b a' p' _ _ _ _ _ _ _ _ _ _ _ _ y I P') in U.
  destruct Y as [Y|[->|(m & -> & n & Y)]].
  - pose proof (M y Y) as W.
    destruct U as [U|[->|[(m & _ & n & U)|[->|[(x & U)|(m & l & _ & _ & n & U)]]]]].
    + exact (D y Y U).
    + exact (not_wallet _ _ _ W P').
    + exact (not_wallet _ _ _ W U).
    + destruct W as (m & k & n & W). destruct (ti_meta _ (history_tidy b HB) _ _ W) as (x & l & X). discriminate X.
    + exact (not_wallet _ _ _ W U).
    + exact (not_wallet _ _ _ W U).
  - destruct U as [U|[U|[(m & U & _)|[U|[(x & U)|(m & l & _ & U & _)]]]]].
    + exact (not_wallet _ _ _ (T _ U) P).
    + congruence.
    + rewrite EA in U; discriminate U.
    + rewrite EA in U; discriminate U.
    + congruence.
    + rewrite EA in U; discriminate U.
  - destruct U as [U|[U|[(m' & U & _)|[U|[(x & U)|(m' & l & _ & U & _)]]]]].
    + exact (not_wallet _ _ _ (T _ U) Y).
    + rewrite EA' in U; discriminate U.
    + injection U as _ U. exact (N U).
    + discriminate U.
    + congruence.
    + discriminate U.
Qed.

(** After any history: two trades in different pools, of traders (and referrers) who use different token
    accounts, do not depend on each other, also if the pools share the config and the quote token. *)
Theorem C96_trades_in_different_pools :
  forall b a p a' p' bm qm inp out r s mode a0 a1 slot now v bm' qm' inp' out' r' s' mode' a0' a1' slot' now' v',
  history b -> b_acc b a = Some (APool p) -> b_acc b a' = Some (APool p') -> a <> a' ->
  let mine := [inp; out] ++ listed r in let theirs := [inp'; out'] ++ listed r' in
  (forall y, In y mine -> wallet b y) -> (forall y, In y theirs -> wallet b y) ->
  (forall y, In y mine -> ~ In y theirs) ->
  let i := ISwap a (pa_config p) (pa_bvault p) (pa_qvault p) bm qm inp out r s mode a0 a1 slot now v in
  let j := ISwap a' (pa_config p') (pa_bvault p') (pa_qvault p') bm' qm' inp' out' r' s' mode' a0' a1' slot' now' v' in
  independent b i j /\ same_state (bstep (bstep b i) j) (bstep (bstep b j) i).
Proof.
  intros b a p a' p' bm qm inp out r s mode a0 a1 slot now v bm' qm' inp' out' r' s' mode' a0' a1' slot' now' v'
    HB P P' N mine theirs M T D i j.
  assert (G : independent b i j).
  { split; [reflexivity|]. split; [reflexivity|]. split; intros y Y U.
    - exact (trades_apart b a p a' p' _ _ _ _ _ _ _ _ _ _ _ _ _ _ _ _ _ _ _ _ _ _ _ _ y HB P P' N M T D Y U).
    - refine (trades_apart b a' p' a p _ _ _ _ _ _ _ _ _ _ _ _ _ _ _ _ _ _ _ _ _ _ _ _ y HB P' P _ T M _ Y U).
      + congruence.
      + intros z Z Z'. exact (D z Z' Z). }
  split; [exact G|]. exact (C96_order_does_not_matter b i j G).
Qed.

(** ** Any two instructions on different pools *)

(** The accounts of other people that an instruction on a pool names: payers and receivers; a new LP mint. *)
Definition others (b : bank) (i : instr) : list addr :=
  match i with
  | ISwap _ _ _ _ _ _ inp out r _ _ _ _ _ _ _ => [inp; out] ++ listed r
  | IClaimPartner _ _ _ _ _ _ ta tb _ _ _ | IClaimCreator _ _ _ _ _ ta tb _ _ _
  | IClaimProtocol _ _ _ _ _ _ ta tb _ _ _ _ => [ta; tb]
  | IZap _ _ _ _ y _ _ _ _ _ | IPartnerSurplus _ _ _ _ y _ | ICreatorSurplus _ _ _ _ y _
  | IMigrationFee _ _ _ _ y _ _ | ILeftover _ _ _ _ y _ | IPartnerCreationFee _ _ y _ | IClaimLp _ _ _ _ y _ => [y]
  | IProtocolCreationFee _ _ _ _ => [Ext (b_treasury b)]
  | ITransferCreator a _ _ _ (Some y) => if addr_eqb y (MetaA a) then [] else [y]
  | IMigrateV1 _ _ _ _ _ l _ _ => [Ext l]
  | _ => []
  end.
(** A token account of somebody outside the program, or an address without a token, mint or program account. *)
Definition outside (b : bank) (y : addr) : Prop := wallet b y \/ exists k, y = Ext k /\ b_acc b y = None.

Definition own (b : bank) (a y : addr) : Prop :=
  y = a \/ y = MetaA a \/ In y (vaults b a)
  \/ exists m l, b_acc b (MetaA a) = Some (AMeta m a (Some l)) /\ y = AtaA Auth l.
(** The account for new LP tokens that a DAMM v1 migration opens. *)
Definition opened (b : bank) (i : instr) (y : addr) : Prop :=
  exists l, y = AtaA Auth l /\ b_acc b y = None /\ In (Ext l) (others b i).

Lemma v1_fresh b a k bv qv m l ok lp b' : ix b (IMigrateV1 a k bv qv m l ok lp) = Ok b' -> b_acc b (AtaA Auth l) = None.
Proof.
  cbn [ix]. unfold exec_migrate_v1. intros H. do 5 bs H. destruct u3 as [[mm vp] ll]. do 2 bs H. bn H x E.
  apply require_ok in E. unfold unused in E. destruct (b_acc b (AtaA Auth l)); [discriminate E|reflexivity].
Qed.

Lemma writes_shape b a p c i b' y : b_acc b a = Some (APool p) -> right b a p c i -> ix b i = Ok b' ->
  In y (writes b i) -> In y (others b i) \/ own b a y \/ opened b i y.
Proof.
  intros P R H Y.
  assert (V : vaults b a = [pa_bvault p; pa_qvault p]) by (unfold vaults; rewrite P; reflexivity).
  assert (OV : forall z, z = pa_bvault p \/ z = pa_qvault p -> own b a z)
    by (intros z Z; right; right; left; rewrite V; cbn; intuition congruence).
  destruct R; cbn [writes] in Y; rewrite ?V in Y; cbn [app In] in Y; cbn [others];
    repeat match goal with Y : _ \/ _ |- _ => destruct Y as [Y|Y] end; try contradiction; try subst y;
    try (left; cbn; auto 9; fail);
    try (right; left; first [apply OV; auto; fail | left; reflexivity | right; left; reflexivity
      | right; right; right; eexists _, _; split; [eassumption|reflexivity]]);
    try (right; right; exists lm; split; [reflexivity|]; split; [exact (v1_fresh _ _ _ _ _ _ _ _ _ _ H)|cbn; auto]).
Qed.

Lemma uses_shape b a p c i b' y : b_acc b a = Some (APool p) -> right b a p c i -> ix b i = Ok b' -> binv b ->
  In y (uses b i) -> In y (others b i) \/ own b a y \/ opened b i y \/ y = Ext (pa_config p).
Proof.
  intros P R H I Y. unfold uses in Y. apply in_app_or in Y. destruct Y as [Y|Y].
  { destruct (writes_shape _ _ _ _ _ _ _ P R H Y) as [?|[?|?]]; auto. }
  assert (F : In y (family b a) -> own b a y \/ y = Ext (pa_config p)).
  { unfold family, vaults. rewrite P. cbn [app In]. intros [<-|[<-|[<-|[<-|[<-|Z]]]]]; unfold own, vaults; rewrite P; cbn [In]; auto 8.
    destruct (b_acc b (MetaA a)) as [[| | | |m vp [l|]]|] eqn:M; cbn [In] in Z; try contradiction. destruct Z as [<-|[]].
    destruct (bi_meta _ I _ _ _ _ M) as (X & _). injection X as <-. left. right. right. right. exists m, l. auto. }
  destruct R; cbn [reads] in Y;
    try (destruct Y as [<-|Y]; [auto; fail|]);
    try (destruct (F Y); auto; fail).
  - (* transfer *)
    apply in_app_or in Y. destruct Y as [Y|Y]; [destruct (F Y); auto|].
    destruct meta as [x|]; [|contradiction]. destruct Y as [<-|[]]. cbn [others]. unfold addr_eqb.
    destruct (addr_dec x (MetaA a)) as [->|]; [right; left; right; left; reflexivity|left; cbn; auto].
Qed.

Lemma outside_not b y x : outside b y -> b_acc b y = Some x -> match x with ATok _ (Ext _) _ => True | _ => False end.
Proof. intros [W|(k & _ & E)] H; [exact (not_wallet b y x W H)|congruence]. Qed.

Lemma own_shape b a p y : binv b -> b_acc b a = Some (APool p) -> own b a y ->
  (y = a /\ exists k h l, a = PoolA k h l) \/ y = MetaA a
  \/ (exists m n, y = VaultA m a /\ b_acc b y = Some (ATok m Auth n))
  \/ (exists m l n, b_acc b (MetaA a) = Some (AMeta m a (Some l)) /\ y = AtaA Auth l /\ b_acc b y = Some (ATok l Auth n)).
Proof.
  intros I P O. destruct (bi_pool _ I _ _ P) as (c & nb & nq & w & _ & EA & EB & EQ & _ & TB & TQ & _).
  destruct O as [->|[->|[O|(m & l & M & ->)]]].
  - left. split; [reflexivity|]. eauto.
  - auto.
  - unfold vaults in O. rewrite P in O. right. right. left. destruct O as [<-|[<-|[]]].
    + exists (pa_bmint p), nb. auto.
    + exists (c_quote_mint c), nq. auto.
  - right. right. right. destruct (bi_meta _ I _ _ _ _ M) as (_ & _ & L). destruct (L l eq_refl) as [n N].
    exists m, l, n. auto.
Qed.
Lemma outside_own b a p y : history b -> b_acc b a = Some (APool p) -> outside b y -> own b a y -> False.
Proof.
  intros HB P X O. pose proof (history_binv b HB) as I.
  destruct (own_shape b a p y I P O) as [(-> & _)|[->|[(m & n & _ & E)|(m & l & n & _ & _ & E)]]].
  - exact (outside_not _ _ _ X P).
  - destruct X as [(m & k & n & W)|(k & E & _)]; [|discriminate E].
    destruct (ti_meta _ (history_tidy b HB) _ _ W) as (x & l & Z). discriminate Z.
  - exact (outside_not _ _ _ X E).
  - exact (outside_not _ _ _ X E).
Qed.
Lemma own_own b a p a' p' y : history b -> b_acc b a = Some (APool p) -> b_acc b a' = Some (APool p') -> a <> a' ->
  own b a y -> own b a' y -> False.
Proof.
  intros HB P P' N O O'. pose proof (history_binv b HB) as I.
  destruct (own_shape b a p y I P O) as [(-> & k & h & l & E)|[->|[(m & n & -> & E)|(m & l & n & M & -> & E)]]];
    destruct (own_shape b a' p' _ I P' O') as [(E' & k' & h' & l' & F)|[E'|[(m' & n' & E' & _)|(m' & l' & n' & M' & E' & _)]]];
    try congruence.
  injection E' as ->. pose proof (bi_lp _ I _ _ _ _ _ _ _ M M') as X. injection X as X. exact (N X).
Qed.
Lemma own_opened b a p i y : history b -> b_acc b a = Some (APool p) -> own b a y -> opened b i y -> False.
Proof.
  intros HB P O (l & -> & U & _). pose proof (history_binv b HB) as I.
  destruct (own_shape b a p _ I P O) as [(E & k & h & l' & F)|[E|[(m & n & E & _)|(m & l' & n & _ & _ & E)]]]; congruence.
Qed.

Lemma pools_apart b i j b1 b2 a a' : history b -> ix b i = Ok b1 -> ix b j = Ok b2 ->
  on_pool i = Some a -> on_pool j = Some a' -> a <> a' ->
  (forall y, In y (others b i) -> outside b y) -> (forall y, In y (others b j) -> outside b y) ->
  (forall y, In y (others b i) -> ~ In y (others b j)) ->
  forall y, In y (writes b i) -> ~ In y (uses b j).
Proof.
  intros HB Hi Hj Pi Pj N Oi Oj D y W U. pose proof (history_binv b HB) as I.
  destruct (C80_only_pools b i b1 a Hi Pi) as [p P]. destruct (C80_only_pools b j b2 a' Hj Pj) as [p' P'].
  destruct (bi_pool _ I _ _ P) as (c & _ & _ & _ & C & _). destruct (bi_pool _ I _ _ P') as (c' & _ & _ & _ & C' & _).
  apply (writes_shape b a p c i b1 y P (C80_only_the_right_accounts b i b1 a p c HB Hi Pi P C) Hi) in W.
  apply (uses_shape b a' p' c' j b2 y P' (C80_only_the_right_accounts b j b2 a' p' c' HB Hj Pj P' C') Hj I) in U.
  destruct W as [W|[W|W]], U as [U|[U|[U|U]]].
  - exact (D y W U).
  - exact (outside_own b a' p' y HB P' (Oi y W) U).
  - destruct U as (l & -> & U & _). destruct (Oi _ W) as [(m & k & n & E)|(k & E & _)]; congruence.
  - subst y. exact (outside_not _ _ _ (Oi _ W) C').
  - exact (outside_own b a p y HB P (Oj y U) W).
  - exact (own_own b a p a' p' y HB P P' N W U).
  - exact (own_opened b a p j y HB P W U).
  - subst y. destruct (own_shape b a p _ I P W) as [(E & k & h & l & F)|[E|[(m & n & E & _)|(m & l & n & _ & E & _)]]]; congruence.
  - destruct W as (l & -> & W & _). destruct (Oj _ U) as [(m & k & n & E)|(k & E & _)]; congruence.
  - exact (own_opened b a' p' i y HB P' U W).
  - destruct W as (l & -> & _ & W), U as (l' & E & _ & U). injection E as <-. exact (D _ W U).
  - subst y. destruct W as (l & W & _). discriminate W.
Qed.

(** After any history: two instructions on different pools that would both succeed, whatever they do, and
    whose payers and receivers are different accounts of people outside the program, do not depend on each
    other. *)
Theorem C96_pools_do_not_wait_for_each_other : forall b i j b1 b2 a a',
  history b -> ix b i = Ok b1 -> ix b j = Ok b2 -> on_pool i = Some a -> on_pool j = Some a' -> a <> a' ->
  (forall y, In y (others b i) -> outside b y) -> (forall y, In y (others b j) -> outside b y) ->
  (forall y, In y (others b i) -> ~ In y (others b j)) ->
  independent b i j
  /\ exists b12 b21, ix b1 j = Ok b12 /\ ix b2 i = Ok b21 /\ same_state b12 b21.
Proof.
  intros b i j b1 b2 a a' HB Hi Hj Pi Pj N Oi Oj D.
  assert (G : independent b i j).
  { split; [destruct i; try reflexivity; discriminate Pi|]. split; [destruct j; try reflexivity; discriminate Pj|]. split.
    - exact (pools_apart b i j b1 b2 a a' HB Hi Hj Pi Pj N Oi Oj D).
    - apply (pools_apart b j i b2 b1 a' a HB Hj Hi Pj Pi); auto. intros y Y Z. exact (D y Z Y). }
  split; [exact G|].
  assert (G' : independent b j i) by (destruct G as (X & Y & Z & Q); split; [exact Y|]; split; [exact X|]; split; assumption).
  pose proof (C96_same_outcome b i j G) as A. pose proof (C96_same_outcome b j i G') as B.
  pose proof (C96_order_does_not_matter b i j G) as E.
  unfold bstep in A, B, E. rewrite Hi, Hj in A, B, E. cbv iota in A, B, E. unfold rel in A, B.
  destruct (ix b1 j) as [b12|]; [|contradiction]. destruct (ix b2 i) as [b21|]; [|contradiction].
  exists b12, b21. auto.
Qed.

(** ** Concrete cases *)

(** Key 600 trades in pool 13 with its own accounts, key 500 in pool 12; both pools have the same config and
    quote token. *)
Definition street : bank := brun (genesis [99] 66)
  (opening ++ [buy pool12 7 (VaultA 12 pool12) (VaultA 11 pool12) 12 (Ext 501) (Ext 502) 2000000000 1700000030;
  XAccount (Ext 601) 11 (Ext 600) 300000000000; XAccount (Ext 603) 13 (Ext 600) 0]).
Lemma street_history : history street.
Proof.
  eexists [99], 66, _. split; [|reflexivity].
  repeat (constructor; [first [exact Logic.I | split; [apply typedA|vm_compute; intuition discriminate]
                              | split; vm_compute; intuition discriminate]|]). constructor.
Qed.
Definition trade12 : instr :=
  buy pool12 7 (VaultA 12 pool12) (VaultA 11 pool12) 12 (Ext 501) (Ext 502) 2000000000 1700000040.
Definition trade13 : instr :=
  ISwap pool13 7 (VaultA 13 pool13) (VaultA 11 pool13) 13 11 (Ext 601) (Ext 603) None 600 1 3000000000 0 1080
    1700000040 plain_view.
Definition gift : instr := XDeposit (Ext 504) 11 1.

Ltac apart_now := split; intros y Y U; vm_compute in Y, U; repeat (destruct Y as [<-|Y]; [intuition discriminate|]); contradiction.

Example C96_case :
  independent street trade12 trade13 /\ batch street [trade12; trade13; gift]
  /\ is_ok (ix street trade12) = true /\ is_ok (ix street trade13) = true /\ is_ok (ix street gift) = true
  /\ let b := brun street [gift; trade13; trade12] in
     balance b (VaultA 11 pool12) = 4000000000 /\ balance b (VaultA 11 pool13) = 3000000000
     /\ 0 < balance b (Ext 603).
Proof.
  split; [split; [reflexivity|]; split; [reflexivity|]; apart_now|].
  split.
  { cbn [batch]. split; [reflexivity|]. split; [repeat (apply Forall_cons; [apart_now|]); apply Forall_nil|].
    split; [reflexivity|]. split; [repeat (apply Forall_cons; [apart_now|]); apply Forall_nil|]. split; [reflexivity|]. split; [constructor|exact Logic.I]. }
  vm_compute. repeat split; reflexivity.
Qed.

(** A trade in pool 13 and a claim of the protocol's fees in pool 12. *)
Definition claim12 : instr := IClaimProtocol pool12 7 (VaultA 12 pool12) (VaultA 11 pool12) 12 11
  (AtaA (Ext 66) 12) (AtaA (Ext 66) 11) 88 88 U64_MAX U64_MAX.
Example C96_case_claim :
  history street /\ is_ok (ix street claim12) = true /\ is_ok (ix street trade13) = true
  /\ on_pool claim12 = Some pool12 /\ on_pool trade13 = Some pool13 /\ pool12 <> pool13
  /\ (forall y, In y (others street claim12) -> outside street y)
  /\ (forall y, In y (others street trade13) -> outside street y)
  /\ (forall y, In y (others street claim12) -> ~ In y (others street trade13))
  /\ 0 < balance (bstep (bstep street trade13) claim12) (AtaA (Ext 66) 11).
Proof.
  split; [exact street_history|]. do 2 (split; [vm_compute; reflexivity|]). do 2 (split; [reflexivity|]).
  split; [discriminate|].
  split; [intros y [<-|[<-|[]]]; left; eexists _, _, _; vm_compute; reflexivity|].
  split; [intros y [<-|[<-|[]]]; left; eexists _, _, _; vm_compute; reflexivity|].
  split; [intros y [<-|[<-|[]]]; cbn; intuition discriminate|]. vm_compute. reflexivity.
Qed.

(** Two trades in one pool are not independent, and there the order does matter. *)
Definition sale12 : instr := ISwap pool12 7 (VaultA 12 pool12) (VaultA 11 pool12) 12 11 (Ext 502) (Ext 504) None 500 0
  1000000000 0 1080 1700000040 plain_view.
Example C96_case_same_pool :
  is_ok (ix street sale12) = true
  /\ balance (bstep (bstep street trade12) sale12) (Ext 504) <> balance (bstep (bstep street sale12) trade12) (Ext 504).
Proof. split; [vm_compute; reflexivity|]. vm_compute. discriminate. Qed.

Print Assumptions C96_same_outcome.
Print Assumptions C96_order_does_not_matter.
Print Assumptions C96_any_schedule.
Print Assumptions C96_trades_in_different_pools.
Print Assumptions C96_pools_do_not_wait_for_each_other.
