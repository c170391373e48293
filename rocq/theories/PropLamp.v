(** * C66: the SOL held by the pool authority, by pools and by users. *)
From Coq Require Import ZArith List Bool Lia.
From Verif Require Import LampModel.
Import ListNotations.
Open Scope Z_scope.

Lemma key_eqb_ok a b : key_eqb a b = true <-> a = b.
Proof.
  destruct a, b; simpl; split; intros H; try discriminate; try reflexivity;
  try (apply Z.eqb_eq in H; subst; reflexivity); injection H as ->; apply Z.eqb_refl.
Qed.
Definition key_dec (a b : key) : {a = b} + {a <> b}.
Proof. decide equality; apply Z.eq_dec. Defined.
Lemma set_same L k i : set L k i k = i.
Proof. unfold set. destruct (key_eqb k k) eqn:E; [reflexivity|]. assert (key_eqb k k = true) by (apply key_eqb_ok; reflexivity). congruence. Qed.
Lemma set_other L k i x : x <> k -> set L k i x = L x.
Proof. intros H. unfold set. destruct (key_eqb x k) eqn:E; [|reflexivity]. apply key_eqb_ok in E. contradiction. Qed.
Lemma credit_same L k n : credit L k n k = mkInfo (lam (L k) + n) (own (L k)) (len (L k)).
Proof. unfold credit. apply set_same. Qed.
Lemma credit_other L k n x : x <> k -> credit L k n x = L x.
Proof. unfold credit. apply set_other. Qed.

(** ** An account that a step can only credit *)

Definition plain (L : ledger) (k : key) : Prop := own (L k) = Us \/ own (L k) = System.
Definition spares (k : key) (s : step) : Prop := forall L L', s L L' -> plain L k -> kept L L' k.

Lemma kept_refl L k : kept L L k.
Proof. unfold kept. auto with zarith. Qed.
Lemma kept_trans L M N k : kept L M k -> kept M N k -> kept L N k.
Proof. unfold kept. intros (A & B & C) (D & E & F). rewrite E, F. split; [lia|auto]. Qed.
Lemma kept_plain L M k : kept L M k -> plain L k -> plain M k.
Proof. unfold kept, plain. intros (_ & -> & _) H. exact H. Qed.
Lemma kept_credit L k n x : 0 <= n -> kept L (credit L k n) x.
Proof.
  intros H. destruct (key_dec x k) as [->|N].
  - unfold kept. rewrite credit_same. simpl. auto with zarith.
  - unfold kept. rewrite credit_other by exact N. auto with zarith.
Qed.

Lemma spares_skip k : spares k skip.
Proof. intros L L' -> _. apply kept_refl. Qed.
Lemma spares_seq k a b : spares k a -> spares k b -> spares k (seq a b).
Proof.
  intros A B L L' (M & H1 & H2) P. pose proof (A _ _ H1 P) as K1.
  exact (kept_trans _ _ _ _ K1 (B _ _ H2 (kept_plain _ _ _ K1 P))).
Qed.
Lemma spares_opt k c a : spares k a -> spares k (opt c a).
Proof. destruct c; simpl; [auto|]. intros _. apply spares_skip. Qed.
Lemma spares_token k : spares k token_call.
Proof. intros L L' H P. apply (H k); exact P. Qed.
Lemma spares_repeat k n : spares k (repeat_token n).
Proof. induction n; simpl; [apply spares_skip|]. apply spares_seq; [apply spares_token|exact IHn]. Qed.

(** Addresses that only their own signature can spend from. *)
Definition private (e : env) (k : key) : Prop := forall n, k = KWallet n -> foreign e n = false.

Lemma spares_external e s k : private e k -> ~ In k s -> spares k (external e s).
Proof. intros F N L L' H [P|P]; destruct (H k) as (_ & A & B); auto. Qed.
Lemma spares_transfer from to n k : k <> from -> spares k (sys_transfer from to n).
Proof.
  intros F L L' (_ & _ & N & ->) _. pose proof (kept_credit (credit L from (- n)) to n k ltac:(lia)) as K.
  unfold kept in *. rewrite (credit_other L from) in K by exact F. exact K.
Qed.
Lemma spares_init e p k0 o size k : k <> KWallet p -> k <> k0 -> spares k (init e p k0 o size).
Proof.
  intros A B L L' (_ & _ & M & T & ->) P. pose proof (spares_transfer _ _ _ k A L M T P) as K.
  unfold kept in *. rewrite set_other by exact B. exact K.
Qed.
Lemma spares_close k0 r k : k <> k0 -> spares k (close k0 r).
Proof.
  intros A L L' (_ & _ & NN & _ & ->) P. unfold kept. rewrite set_other by exact A.
  apply (kept_credit L r). exact NN.
Qed.
Lemma spares_pool_pays e pool to n k : k <> KPda pool -> spares k (pool_pays e pool to n).
Proof.
  intros A L L' (_ & _ & N & -> & _) _. pose proof (kept_credit (credit L (KPda pool) (- n)) to n k ltac:(lia)) as K.
  unfold kept in *. rewrite (credit_other L (KPda pool)) in K by exact A. exact K.
Qed.
Lemma spares_top_up e k0 p k : k <> KWallet p -> spares k (top_up e k0 p).
Proof.
  intros A L L' H P. unfold top_up in H. destruct (lam (L k0) <? rent e (len (L k0))).
  - exact (spares_transfer _ _ _ k A L L' H P).
  - subst L'. apply kept_refl.
Qed.
Lemma spares_checked cpi k : spares k (cpi_checked cpi k).
Proof. intros L L' (_ & A & B & C) _. unfold kept. auto. Qed.
Lemma spares_checked_other cpi k0 k : spares k cpi -> spares k (cpi_checked cpi k0).
Proof. intros S L L' (H & _) P. exact (S _ _ H P). Qed.
Lemma spares_flash lender b op k : k <> b -> spares k op -> spares k (flash_rent lender b op).
Proof.
  intros B S L L' (M & H & T) P. pose proof (S _ _ H P) as K. cbv zeta in T.
  destruct (0 <? Z.max 0 (lam (L lender) - lam (M lender))).
  - exact (kept_trans _ _ _ _ K (spares_transfer _ _ _ k B M L' T (kept_plain _ _ _ K P))).
  - subst L'. exact K.
Qed.
Lemma spares_fee payer pool fee k : k <> KWallet payer -> spares k (charge_fee payer pool fee).
Proof. intros A. apply spares_opt, spares_transfer, A. Qed.
Lemma spares_accounts e p m ms pool bv qv qs k :
  k <> KWallet p -> k <> KWallet m -> k <> KPda pool -> k <> KPda bv -> k <> KPda qv ->
  spares k (create_pool_accounts e p m ms pool bv qv qs).
Proof. intros. repeat apply spares_seq; apply spares_init; auto. Qed.

(** ** What the statements are about *)

(** The wallets whose signature an instruction carries. *)
Definition signs (i : instr) : list Z :=
  match i with
  | ICreateConfig payer config => [payer; config]
  | IOwnAccount payer _ _ => [payer]
  | ICloseOperator _ _ | ITokens _ | IClaimCreation _ _ _ => []
  | IInitSpl payer creator mint _ _ _ _ | IInit2022 payer creator mint _ _ _ _ => [payer; creator; mint]
  | ICreateLocker payer s | IMigrateV1 payer s _ | IMigrateV2 payer s _ _ _ _ => payer :: s
  | ILockLp s | IOutside s => s
  end.
(** The accounts it creates. *)
Definition creates (i : instr) : list key :=
  match i with
  | ICreateConfig _ config => [KWallet config]
  | IOwnAccount _ account _ => [KPda account]
  | IInitSpl _ _ mint pool bv qv _ | IInit2022 _ _ mint pool bv qv _ => [KWallet mint; KPda pool; KPda bv; KPda qv]
  | _ => []
  end.
(** The account of this program it pays out of, or closes. *)
Definition pays_from (i : instr) : list key :=
  match i with
  | IClaimCreation pool _ _ => [KPda pool]
  | ICloseOperator operator _ => [KPda operator]
  | _ => []
  end.

(** The pool authority as it is on chain: a system account without data. *)
Definition is_float (i : info) : Prop := own i = System /\ len i = 0.

Lemma in_wallets n l : In (KWallet n) (wallets l) -> In n l.
Proof. unfold wallets. intros H. apply in_map_iff in H. destruct H as (x & E & I). injection E as ->. exact I. Qed.
Lemma auth_not_wallet l : ~ In KAuth (wallets l).
Proof. unfold wallets. intros H. apply in_map_iff in H. destruct H as (x & E & _). discriminate. Qed.

Lemma auth_spared e i : spares KAuth (run1 e i).
Proof.
  assert (PR : private e KAuth) by (intros n; discriminate).
  destruct i; simpl.
  - apply spares_init; discriminate.
  - intros L L' (_ & H) P. revert H P. apply spares_init; discriminate.
  - apply spares_close. discriminate.
  - intros L L' (q & H) P. revert H P. apply spares_seq; [apply spares_accounts; discriminate|].
    apply spares_seq; [apply spares_checked|]. repeat (apply spares_seq; [apply spares_token|]). apply spares_fee. discriminate.
  - intros L L' (m & q & H) P. revert H P. apply spares_seq; [apply spares_accounts; discriminate|].
    apply spares_seq; [apply spares_token|]. apply spares_seq; [apply spares_top_up; discriminate|].
    repeat (apply spares_seq; [apply spares_token|]). apply spares_fee. discriminate.
  - apply spares_repeat.
  - apply spares_opt, spares_pool_pays. discriminate.
  - apply spares_checked.
  - apply spares_seq; [apply spares_checked|apply spares_opt, spares_token].
  - apply spares_checked.
  - apply spares_seq; [apply spares_checked|]. apply spares_seq; [apply spares_opt, spares_checked|].
    apply spares_seq; [apply spares_token|]. apply spares_seq; [|apply spares_opt, spares_token].
    apply spares_opt. apply spares_seq; [apply spares_external; [exact PR|apply auth_not_wallet]|].
    apply spares_seq; [apply spares_checked|]. apply spares_seq; [apply spares_opt, spares_checked|apply spares_token].
  - apply spares_external; [exact PR|apply auth_not_wallet].
Qed.

(** ** C66 *)

(** Whatever the external programs do, no history lowers the lamports of the pool authority, and it
    stays a system account without data (so that it can go on advancing rent). *)
Theorem C66_authority_keeps_its_sol : forall e is L L',
  lamps e is L L' -> is_float (L KAuth) ->
  lam (L KAuth) <= lam (L' KAuth) /\ is_float (L' KAuth).
Proof.
  intros e is. induction is as [|i is IH]; intros L L' H F; simpl in H.
  - unfold skip in H. subst L'. split; [lia|exact F].
  - destruct H as (M & H1 & H2). destruct F as (F1 & F2).
    destruct (auth_spared e i L M H1 (or_intror F1)) as (A & B & C).
    destruct (IH M L' H2) as (D & E); [split; congruence|]. split; [lia|exact E].
Qed.

Lemma others_spared e i k : private e k -> ~ In k (wallets (signs i)) -> ~ In k (pays_from i) ->
  ~ In k (creates i) -> spares k (run1 e i).
Proof.
  intros PR S F C. destruct (key_dec k KAuth) as [->|NA]; [apply auth_spared|].
  assert (W : forall l, (forall n, In n l -> In n (signs i)) -> ~ In k (wallets l)).
  { intros l I X. apply S. unfold wallets in *. apply in_map_iff in X. destruct X as (n & <- & J).
    apply in_map_iff. exists n. auto. }
  assert (SG : forall l, (forall n, In n l -> In n (signs i)) -> ~ In k (signed l)).
  { intros l I [X|X]; [congruence|]. exact (W l I X). }
  destruct i; cbn [signs pays_from creates wallets map In] in *; cbn [run1].
  - apply spares_init; intuition.
  - intros L L' (_ & H) P. revert H P. apply spares_init; intuition.
  - apply spares_close. intuition.
  - intros L L' (q & H) P. revert H P. apply spares_seq; [apply spares_accounts; intuition|].
    apply spares_seq; [apply spares_checked_other, spares_seq; apply spares_external; auto|].
    repeat (apply spares_seq; [apply spares_token|]). apply spares_fee. intuition.
  - intros L L' (m & q & H) P. revert H P. apply spares_seq; [apply spares_accounts; intuition|].
    apply spares_seq; [apply spares_token|]. apply spares_seq; [apply spares_top_up; intuition|].
    repeat (apply spares_seq; [apply spares_token|]). apply spares_fee. intuition.
  - apply spares_repeat.
  - apply spares_opt, spares_pool_pays. intuition.
  - apply spares_checked_other, spares_flash; [intuition|]. apply spares_external; [auto|apply SG; intuition].
  - apply spares_seq; [|apply spares_opt, spares_token].
    apply spares_checked_other, spares_flash; [intuition|]. apply spares_external; [auto|apply SG; intuition].
  - apply spares_checked_other, spares_external; [auto|apply SG; auto].
  - assert (EX : spares k (external e (signed signers))) by (apply spares_external; [auto|apply SG; intuition]).
    assert (NP : k <> KWallet payer) by intuition.
    assert (LK : spares k (cpi_checked (flash_rent KAuth (KWallet payer)
       (seq (external e (signed signers)) (external e (signed signers)))) KAuth))
      by (apply spares_checked_other, spares_flash; [exact NP|apply spares_seq; exact EX]).
    apply spares_seq; [apply spares_checked_other, spares_flash; [exact NP|exact EX]|].
    apply spares_seq; [apply spares_opt, LK|]. apply spares_seq; [apply spares_token|].
    apply spares_seq; [|apply spares_opt, spares_token]. apply spares_opt.
    apply spares_seq; [apply spares_external; [auto|apply W; intuition]|].
    apply spares_seq; [apply spares_checked_other, EX|]. apply spares_seq; [apply spares_opt, LK|apply spares_token].
  - apply spares_external; [auto|apply W; auto].
Qed.

(** Only signers, the account a creation-fee claim pays from, a closed operator account, the accounts
    being created and accounts of other programs can lose lamports. *)
Theorem C66_who_can_lose_sol : forall e i L L' k,
  run1 e i L L' -> lam (L' k) < lam (L k) ->
  (exists n, k = KWallet n /\ (In n (signs i) \/ foreign e n = true))
  \/ In k (pays_from i) \/ In k (creates i) \/ (exists n, own (L k) = Other n).
Proof.
  intros e i L L' k H LT.
  destruct (in_dec key_dec k (pays_from i)) as [A|A]; [auto|].
  destruct (in_dec key_dec k (creates i)) as [B|B]; [auto|].
  destruct (in_dec key_dec k (wallets (signs i))) as [C|C].
  { left. destruct k as [|n|n]; [destruct (auth_not_wallet _ C)| |].
    - unfold wallets in C. apply in_map_iff in C. destruct C as (x & X & _). discriminate.
    - exists n. split; [reflexivity|left]. apply in_wallets. exact C. }
  assert (PR : {n | k = KWallet n /\ foreign e n = true} + {private e k}).
  { destruct k as [|n|n]; [right; intros m; discriminate|right; intros m; discriminate|].
    destruct (foreign e n) eqn:F; [left; exists n; auto|right]. intros m E. injection E as <-. exact F. }
  destruct PR as [(n & E & F)|PR]; [left; exists n; auto|].
  destruct (own (L k)) eqn:O; [| |right; right; right; eexists; reflexivity];
  destruct (others_spared e i k PR C A B L L' H) as (K & _); unfold plain; auto; lia.
Qed.

(** A claim of creation fees moves exactly the claimed amount, and the pool keeps its rent. *)
Theorem C66_claims_are_exact : forall e pool receiver amount L L',
  run1 e (IClaimCreation pool receiver amount) L L' -> 0 <= amount ->
  (receiver <> KPda pool ->
     lam (L' (KPda pool)) = lam (L (KPda pool)) - amount /\ lam (L' receiver) = lam (L receiver) + amount)
  /\ (forall k, k <> KPda pool -> k <> receiver -> L' k = L k).
Proof.
  intros e pool r n L L' H N. cbn [run1] in H. destruct (0 <? n) eqn:P; cbn [opt] in H.
  - destruct H as (_ & _ & _ & -> & _). split.
    + intros D. rewrite (credit_other _ r n (KPda pool)) by congruence. rewrite !credit_same.
      rewrite credit_other by exact D. simpl. lia.
    + intros k A B. rewrite !credit_other by auto. reflexivity.
  - unfold skip in H. subst L'. assert (n = 0) by lia. subst n. split; intros; [lia|reflexivity].
Qed.

(** When another program is paid with the authority's lamports, whoever sent the instruction pays
    them back exactly, in the same instruction, and nothing else is taken from them. *)
Definition repaid (payer : Z) (call : step) (L L' : ledger) : Prop :=
  exists M, call L M
    /\ (lam (M KAuth) <= lam (L KAuth) ->
         lam (L' KAuth) = lam (L KAuth)
         /\ lam (L' (KWallet payer)) = lam (M (KWallet payer)) - (lam (L KAuth) - lam (M KAuth)))
    /\ (lam (L KAuth) <= lam (M KAuth) -> L' = M)
    /\ (forall k, k <> KAuth -> k <> KWallet payer -> L' k = M k).

Lemma rented_repaid payer call L L' :
  cpi_checked (flash_rent KAuth (KWallet payer) call) KAuth L L' -> repaid payer call L L'.
Proof.
  intros ((M & X & T) & _). exists M. split; [exact X|]. cbv zeta in T.
  destruct (0 <? Z.max 0 (lam (L KAuth) - lam (M KAuth))) eqn:C.
  - destruct T as (_ & _ & _ & ->). assert (NE : KWallet payer <> KAuth) by discriminate. split; [|split].
    + intros LE. rewrite (credit_other _ KAuth _ (KWallet payer)) by exact NE.
      rewrite !credit_same. rewrite (credit_other _ (KWallet payer)) by congruence. simpl. lia.
    + lia.
    + intros k A B. rewrite !credit_other by auto. reflexivity.
  - subst L'. split; [|split; auto]. intros LE. lia.
Qed.

Theorem C66_advance_is_repaid : forall e payer signers L L',
  (run1 e (ICreateLocker payer signers) L L' -> repaid payer (external e (signed signers)) L L')
  /\ (forall burn, run1 e (IMigrateV1 payer signers burn) L L' ->
        exists N, repaid payer (external e (signed signers)) L N /\ (N = L' \/ token_call N L'))
  /\ (forall l1 s2 l2 burn, run1 e (IMigrateV2 payer signers l1 s2 l2 burn) L L' ->
        exists N, repaid payer (external e (signed signers)) L N
          /\ (forall k, plain N k -> private e k -> k <> KWallet payer -> ~ In k (wallets signers) -> kept N L' k)).
Proof.
  intros e payer s L L'. split; [|split].
  - apply rented_repaid.
  - intros burn (N & A & B). exists N. split; [apply rented_repaid; exact A|]. destruct burn; [right|left]; exact B || (symmetry; exact B).
  - intros l1 s2 l2 burn (N & A & B). exists N. split; [apply rented_repaid; exact A|].
    intros k P PR NP NS.
    destruct (key_dec k KAuth) as [->|NA].
    + revert B P. apply spares_seq; [apply spares_opt, spares_checked|].
      apply spares_seq; [apply spares_token|]. apply spares_seq; [|apply spares_opt, spares_token].
      apply spares_opt. apply spares_seq; [apply spares_external; [exact PR|apply auth_not_wallet]|].
      apply spares_seq; [apply spares_checked|]. apply spares_seq; [apply spares_opt, spares_checked|apply spares_token].
    + assert (EX : spares k (external e (signed s))) by (apply spares_external; [auto|intros [X|X]; [congruence|auto]]).
      assert (LK : spares k (cpi_checked (flash_rent KAuth (KWallet payer)
         (seq (external e (signed s)) (external e (signed s)))) KAuth))
        by (apply spares_checked_other, spares_flash; [exact NP|apply spares_seq; exact EX]).
      revert B P. apply spares_seq; [apply spares_opt, LK|]. apply spares_seq; [apply spares_token|].
      apply spares_seq; [|apply spares_opt, spares_token]. apply spares_opt.
      apply spares_seq; [apply spares_external; auto|].
      apply spares_seq; [apply spares_checked_other, EX|]. apply spares_seq; [apply spares_opt, LK|apply spares_token].
Qed.

(** Advances do not block anything: whenever the called program leaves the authority a system account
    without data and the payer can repay what it took, locker creation succeeds. *)
Theorem C66_advance_succeeds : forall e payer signers L M,
  external e (signed signers) L M -> is_float (L KAuth) -> is_float (M KAuth) ->
  is_float (M (KWallet payer)) -> lam (L KAuth) - lam (M KAuth) <= lam (M (KWallet payer)) ->
  exists L', run1 e (ICreateLocker payer signers) L L'.
Proof.
  intros e payer s L M X (A1 & A2) (B1 & B2) (C1 & C2) E. cbn [run1].
  pose proof (X (KWallet payer)) as (P0 & _).
  destruct (0 <? Z.max 0 (lam (L KAuth) - lam (M KAuth))) eqn:C.
  - exists (credit (credit M (KWallet payer) (- Z.max 0 (lam (L KAuth) - lam (M KAuth)))) KAuth (Z.max 0 (lam (L KAuth) - lam (M KAuth)))).
    split.
    + exists M. split; [exact X|]. cbv zeta. rewrite C. split; [exact C1|]. split; [exact C2|]. split; [lia|reflexivity].
    + rewrite credit_same, credit_other by discriminate. cbn [lam own len]. repeat split; try congruence. lia.
  - exists M. split; [exists M; split; [exact X|]; cbv zeta; rewrite C; reflexivity|].
    repeat split; try congruence. lia.
Qed.

(** Creating one account of the program costs the payer its rent, less what the address already held,
    and nobody else anything. *)
Theorem C66_account_cost : forall e payer L L' i size account,
  (i = ICreateConfig payer account /\ size = CONFIG_SIZE /\ account <> payer
   \/ i = IOwnAccount payer account size) ->
  run1 e i L L' ->
  let k := match i with ICreateConfig _ _ => KWallet account | _ => KPda account end in
  let paid := Z.max 0 (rent e size - lam (L k)) in
  lam (L' (KWallet payer)) = lam (L (KWallet payer)) - paid
  /\ L' k = mkInfo (lam (L k) + paid) Us size
  /\ (forall x, x <> k -> x <> KWallet payer -> L' x = L x).
Proof.
  intros e payer L L' i size account HI H k paid.
  assert (G : k <> KWallet payer /\ init e payer k Us size L L').
  { destruct HI as [(-> & -> & N)| ->]; cbn [run1] in H; subst k.
    - split; [congruence|exact H].
    - split; [discriminate|apply H]. }
  destruct G as (N & (_ & _ & M & (_ & _ & _ & EM) & ->)). fold paid in EM.
  split; [|split].
  - rewrite set_other by congruence. rewrite EM, credit_other, credit_same by congruence. cbn [lam]. lia.
  - rewrite set_same, EM, credit_same, credit_other by exact N. reflexivity.
  - intros x A B. rewrite set_other by exact A. rewrite EM, !credit_other by auto. reflexivity.
Qed.

(** ** Accounts of the program stay rent exempt *)

(** An account of this program, of size [n], holding at least its rent. *)
Definition exempt (e : env) (n : Z) (i : info) : Prop := own i = Us /\ len i = n /\ rent e n <= lam i.

Lemma exempt_kept e sz L L' k : kept L L' k -> exempt e sz (L k) -> exempt e sz (L' k).
Proof. unfold exempt, kept. intros (A & B & C) (D & E & F). rewrite B, C. repeat split; [exact D|exact E|lia]. Qed.

Definition holds (e : env) (sz : Z) (k : key) (s : step) : Prop :=
  forall L L', s L L' -> exempt e sz (L k) -> exempt e sz (L' k).
Lemma holds_seq e sz k a b : holds e sz k a -> holds e sz k b -> holds e sz k (seq a b).
Proof. intros A B L L' (M & H1 & H2) X. eauto. Qed.
Lemma holds_spares e sz k s : spares k s -> holds e sz k s.
Proof. intros S L L' H X. eapply exempt_kept; [apply (S _ _ H); left; apply X|exact X]. Qed.
Lemma holds_opt e sz k c s : holds e sz k s -> holds e sz k (opt c s).
Proof. destruct c; simpl; [auto|]. intros _ L L' -> X. exact X. Qed.
(** Our accounts are never spent by anyone's signature. *)
Lemma holds_external e sz s k : holds e sz k (external e s).
Proof. intros L L' H X. destruct (H k) as (_ & U & _). eapply exempt_kept; [apply U, X|exact X]. Qed.
Lemma holds_transfer e sz k from to n : holds e sz k (sys_transfer from to n).
Proof.
  intros L L' H X. destruct (key_dec k from) as [->|N].
  - destruct H as (S & _). destruct X as (U & _). congruence.
  - eapply (holds_spares e sz k _ (spares_transfer from to n k N)); eauto.
Qed.
Lemma holds_init e sz p k0 o size k : holds e sz k (init e p k0 o size).
Proof.
  intros L L' (S & Z0 & M & T & ->) X. destruct (key_dec k k0) as [->|N].
  - destruct X as (U & _). congruence.
  - rewrite set_other by exact N. eapply holds_transfer; eauto.
Qed.
Lemma holds_checked e sz k0 k s : holds e sz k s -> holds e sz k (cpi_checked s k0).
Proof. intros S L L' (H & _) X. eauto. Qed.
Lemma holds_flash e sz l b s k : holds e sz k s -> holds e sz k (flash_rent l b s).
Proof.
  intros S L L' (M & H & T) X. cbv zeta in T. destruct (0 <? Z.max 0 (lam (L l) - lam (M l))).
  - eapply holds_transfer; eauto.
  - subst L'. eauto.
Qed.
Lemma holds_token e sz k : holds e sz k token_call.
Proof. apply holds_spares, spares_token. Qed.

Lemma run1_exempt e sz i k : sz <> OPERATOR_SIZE -> sz <> CLAIM_OPERATOR_SIZE -> holds e sz k (run1 e i).
Proof.
  intros NO NC. assert (F : forall p q f, holds e sz k (charge_fee p q f)) by (intros; apply holds_opt, holds_transfer).
  assert (CA : forall p m ms pool bv qv qs, holds e sz k (create_pool_accounts e p m ms pool bv qv qs))
    by (intros; repeat apply holds_seq; apply holds_init).
  assert (RX : forall p s, holds e sz k (cpi_checked (flash_rent KAuth (KWallet p) (external e s)) KAuth))
    by (intros; apply holds_checked, holds_flash, holds_external).
  destruct i; cbn [run1].
  - apply holds_init.
  - intros L L' (_ & H). revert H. apply holds_init.
  - intros L L' H X. destruct (key_dec k (KPda operator)) as [->|N].
    + destruct H as (_ & Z0 & _). destruct X as (_ & X & _). destruct Z0; congruence.
    + eapply holds_spares; [apply spares_close; exact N|exact H|exact X].
  - intros L L' (q & H). revert H. apply holds_seq; [apply CA|].
    apply holds_seq; [apply holds_checked, holds_seq; apply holds_external|].
    repeat (apply holds_seq; [apply holds_token|]). apply F.
  - intros L L' (m & q & H). revert H. apply holds_seq; [apply CA|]. apply holds_seq; [apply holds_token|].
    apply holds_seq.
    { clear L L'. intros L L' H X. unfold top_up in H. destruct (lam (L (KWallet mint)) <? rent e (len (L (KWallet mint)))).
      - eapply holds_transfer; eauto.
      - subst L'. exact X. }
    repeat (apply holds_seq; [apply holds_token|]). apply F.
  - apply holds_spares, spares_repeat.
  - apply holds_opt. intros L L' H X. destruct (key_dec k (KPda pool)) as [->|N].
    + destruct H as (U & Z0 & NN & E & R). destruct X as (_ & X & _).
      assert (Q : own (L' (KPda pool)) = Us /\ len (L' (KPda pool)) = POOL_SIZE).
      { rewrite E. destruct (key_dec (KPda pool) receiver) as [<-|D].
        - rewrite credit_same, credit_same. auto.
        - rewrite credit_other, credit_same by exact D. auto. }
      assert (SZ : sz = POOL_SIZE) by congruence. rewrite SZ. split; [apply Q|]. split; [apply Q|exact R].
    + eapply holds_spares; [apply spares_pool_pays; exact N|exact H|exact X].
  - apply RX.
  - apply holds_seq; [apply RX|apply holds_opt, holds_token].
  - apply holds_checked, holds_external.
  - assert (LK : holds e sz k (cpi_checked (flash_rent KAuth (KWallet payer)
       (seq (external e (signed signers)) (external e (signed signers)))) KAuth))
      by (apply holds_checked, holds_flash, holds_seq; apply holds_external).
    apply holds_seq; [apply RX|]. apply holds_seq; [apply holds_opt, LK|]. apply holds_seq; [apply holds_token|].
    apply holds_seq; [|apply holds_opt, holds_token]. apply holds_opt.
    apply holds_seq; [apply holds_external|]. apply holds_seq; [apply holds_checked, holds_external|].
    apply holds_seq; [apply holds_opt, LK|apply holds_token].
  - apply holds_external.
Qed.

(** Pools, configurations and metadata, once created, are never closed, emptied, resized or handed
    to another program, and never fall below their rent minimum, in any history. *)
Theorem C66_accounts_stay : forall e is L L' k size,
  lamps e is L L' -> size <> OPERATOR_SIZE -> size <> CLAIM_OPERATOR_SIZE ->
  exempt e size (L k) -> exempt e size (L' k).
Proof.
  intros e is. induction is as [|i is IH]; intros L L' k sz H A B X; simpl in H.
  - unfold skip in H. subst L'. exact X.
  - destruct H as (M & H1 & H2). eapply (IH M L' k sz H2 A B). eapply run1_exempt; eauto.
Qed.

(** A new pool starts with its rent plus the whole creation fee, whatever the other programs do. *)
Lemma init_exempt e p k size L L' : k <> KWallet p -> init e p k Us size L L' -> exempt e size (L' k).
Proof.
  intros N (_ & _ & M & (_ & _ & _ & E) & ->). unfold exempt. rewrite set_same. simpl.
  split; [reflexivity|]. split; [reflexivity|]. rewrite E, credit_same, credit_other by exact N. simpl. lia.
Qed.
Lemma accounts_exempt e p m ms pool bv qv qs L L' :
  create_pool_accounts e p m ms pool bv qv qs L L' -> exempt e POOL_SIZE (L' (KPda pool)).
Proof.
  intros (M1 & _ & M2 & I & M3 & B & C).
  eapply holds_init; [exact C|]. eapply holds_init; [exact B|]. eapply init_exempt; [discriminate|exact I].
Qed.
Lemma fee_funded e payer pool fee L L' :
  charge_fee payer pool fee L L' -> exempt e POOL_SIZE (L (KPda pool)) ->
  own (L' (KPda pool)) = Us /\ len (L' (KPda pool)) = POOL_SIZE
  /\ rent e POOL_SIZE + Z.max 0 fee <= lam (L' (KPda pool)).
Proof.
  intros H (A & B & C). unfold charge_fee in H. destruct (0 <? fee) eqn:F; cbn [opt] in H.
  - destruct H as (_ & _ & _ & ->). rewrite credit_same, credit_other by discriminate. simpl. repeat split; auto. lia.
  - unfold skip in H. subst L'. repeat split; auto. lia.
Qed.
Theorem C66_pool_starts_funded : forall e payer creator mint pool bv qv fee L L',
  run1 e (IInitSpl payer creator mint pool bv qv fee) L L'
  \/ run1 e (IInit2022 payer creator mint pool bv qv fee) L L' ->
  own (L' (KPda pool)) = Us /\ len (L' (KPda pool)) = POOL_SIZE
  /\ rent e POOL_SIZE + Z.max 0 fee <= lam (L' (KPda pool)).
Proof.
  intros e payer creator mint pool bv qv fee L L' [H|H]; cbn [run1] in H.
  - destruct H as (q & M1 & A & M2 & X & M3 & T1 & M4 & T2 & F).
    eapply fee_funded; [exact F|]. eapply holds_token; [exact T2|]. eapply holds_token; [exact T1|].
    eapply holds_checked; [apply holds_seq; apply holds_external|exact X|]. eapply accounts_exempt; eauto.
  - destruct H as (m & q & M1 & A & M2 & T1 & M3 & U & M4 & T2 & M5 & T3 & M6 & T4 & M7 & T5 & F).
    eapply fee_funded; [exact F|]. eapply holds_token; [exact T5|]. eapply holds_token; [exact T4|].
    eapply holds_token; [exact T3|]. eapply holds_token; [exact T2|].
    assert (X : exempt e POOL_SIZE (M2 (KPda pool))) by (eapply holds_token; [exact T1|]; eapply accounts_exempt; eauto).
    unfold top_up in U. destruct (lam (M2 (KWallet mint)) <? rent e (len (M2 (KWallet mint)))).
    + eapply holds_transfer; eauto.
    + subst M3. exact X.
Qed.

(** ** The cases are not empty *)

Definition ex_env : env := mkEnv (fun n => 890880 + 6960 * n) (fun n => n =? 900).
(** The authority holds 5,000,000; wallet 1 is rich; pool 10 exists; 900 is an address of another
    program's vault. *)
Definition ex_ledger : ledger := fun k =>
  match k with
  | KAuth => mkInfo 5000000 System 0
  | KWallet 1 => mkInfo 1000000000 System 0
  | KPda 10 => mkInfo (890880 + 6960 * 424 + 50000) Us POOL_SIZE
  | _ => mkInfo 0 System 0
  end.

Definition nonneg (L : ledger) : Prop := forall k, 0 <= lam (L k).
Lemma ex_nonneg : nonneg ex_ledger.
Proof.
  intros k. unfold ex_ledger. destruct k as [|n|n]; [vm_compute; discriminate| |];
  destruct n as [|q|q]; try (vm_compute; discriminate);
  repeat (destruct q as [q|q|]; try (vm_compute; discriminate)).
Qed.

(** The locker program takes 2,000,000 lamports of the authority's signature for the rent of a new
    account 900; wallet 1 pays them back. *)
Definition ex_mid : ledger := set (credit ex_ledger KAuth (-2000000)) (KWallet 900) (mkInfo 2000000 (Other 7) 160).
Definition ex_end : ledger := credit (credit ex_mid (KWallet 1) (-2000000)) KAuth 2000000.
Example C66_case_advance :
  run1 ex_env (ICreateLocker 1 [1]) ex_ledger ex_end
  /\ lam (ex_end KAuth) = 5000000 /\ lam (ex_end (KWallet 1)) = 998000000 /\ lam (ex_mid KAuth) = 3000000.
Proof.
  split; [|vm_compute; auto]. split; [|vm_compute; repeat split; try discriminate; auto].
  exists ex_mid. split.
  - intros k. destruct (key_dec k KAuth) as [->|NA].
    { split; [vm_compute; discriminate|]. split; [vm_compute; discriminate|]. intros _ NI. exfalso. apply NI. left. reflexivity. }
    destruct (key_dec k (KWallet 900)) as [->|NW].
    { split; [vm_compute; discriminate|]. split; [vm_compute; discriminate|]. intros _ _ F. specialize (F 900 eq_refl). discriminate. }
    unfold ex_mid, kept. rewrite set_other, credit_other by auto.
    pose proof (ex_nonneg k).
    split; [assumption|]. split; intros; repeat split; lia.
  - vm_compute. repeat split; auto; discriminate.
Qed.

(** A claim of 50,000 takes the pool to its rent minimum; one more lamport is refused. *)
Example C66_case_claim :
  run1 ex_env (IClaimCreation 10 (KWallet 1) 50000) ex_ledger
       (credit (credit ex_ledger (KPda 10) (-50000)) (KWallet 1) 50000)
  /\ (forall L', ~ run1 ex_env (IClaimCreation 10 (KWallet 1) 50001) ex_ledger L').
Proof.
  split.
  - vm_compute. repeat split; auto; discriminate.
  - intros L' H. cbn [run1] in H. change (0 <? 50001) with true in H. cbn [opt] in H.
    destruct H as (_ & _ & _ & -> & R). vm_compute in R. apply R. reflexivity.
Qed.

(** Pool creation with a fee: wallet 1 pays the rent of four accounts and the fee; the token program
    is left to do nothing with lamports. *)
Lemma token_idle L : nonneg L -> token_call L L.
Proof. intros N k. split; [apply N|]. intros _. apply kept_refl. Qed.
Lemma transfer_nonneg from to n L L' : nonneg L -> sys_transfer from to n L L' -> nonneg L'.
Proof.
  intros N (_ & _ & R & ->) k. destruct (key_dec k to) as [->|A].
  - rewrite credit_same. destruct (key_dec to from) as [->|B]; [rewrite credit_same|rewrite credit_other by exact B; pose proof (N to)]; simpl; lia.
  - rewrite credit_other by exact A. destruct (key_dec k from) as [->|B]; [rewrite credit_same; simpl; lia|].
    rewrite credit_other by exact B. apply N.
Qed.
Definition moved (from to : key) (n : Z) (L : ledger) : ledger := credit (credit L from (- n)) to n.
Definition made (k : key) (o : prog) (size : Z) (L : ledger) : ledger :=
  set (moved (KWallet 1) k (890880 + 6960 * size) L) k (mkInfo (890880 + 6960 * size) o size).
Definition ex_l1 := made (KWallet 20) TOKEN 82 ex_ledger.
Definition ex_l2 := made (KPda 30) Us POOL_SIZE ex_l1.
Definition ex_l3 := made (KPda 31) TOKEN 165 ex_l2.
Definition ex_l4 := made (KPda 32) TOKEN 165 ex_l3.
Definition ex_l5 := moved (KWallet 1) (KPda 30) 1000000 ex_l4.
Lemma made_nonneg k o size L : nonneg L -> k <> KWallet 1 ->
  own (L (KWallet 1)) = System -> len (L (KWallet 1)) = 0 ->
  0 <= 890880 + 6960 * size <= lam (L (KWallet 1)) -> nonneg (made k o size L).
Proof.
  intros N A B C D. assert (T : sys_transfer (KWallet 1) k (890880 + 6960 * size) L (moved (KWallet 1) k (890880 + 6960 * size) L))
    by (split; [exact B|]; split; [exact C|]; split; [exact D|reflexivity]).
  pose proof (transfer_nonneg _ _ _ _ _ N T) as M. intros x. unfold made.
  destruct (key_dec x k) as [->|X]; [rewrite set_same; cbn [lam]; lia|rewrite set_other by exact X; apply M].
Qed.
Lemma made_init k o size L : own (L k) = System -> len (L k) = 0 -> lam (L k) = 0 -> k <> KWallet 1 ->
  own (L (KWallet 1)) = System -> len (L (KWallet 1)) = 0 ->
  0 <= 890880 + 6960 * size <= lam (L (KWallet 1)) -> init ex_env 1 k o size L (made k o size L).
Proof.
  intros A B C K D E F. split; [exact A|]. split; [exact B|].
  exists (moved (KWallet 1) k (890880 + 6960 * size) L). cbn [rent ex_env]. rewrite C.
  replace (Z.max 0 (890880 + 6960 * size - 0)) with (890880 + 6960 * size) by lia. split.
  - split; [exact D|]. split; [exact E|]. split; [exact F|reflexivity].
  - unfold made. f_equal. unfold moved. rewrite credit_same, credit_other by exact K. cbn [lam]. rewrite C. reflexivity.
Qed.
Lemma ex_l4_nonneg : nonneg ex_l4.
Proof.
  unfold ex_l4, ex_l3, ex_l2, ex_l1.
  repeat (apply made_nonneg; [|discriminate|vm_compute; reflexivity|vm_compute; reflexivity|vm_compute; split; discriminate]).
  apply ex_nonneg.
Qed.
Example C66_case_creation :
  lamps ex_env [IInit2022 1 1 20 30 31 32 1000000; IClaimCreation 30 (KWallet 1) 100000] ex_ledger
     (moved (KPda 30) (KWallet 1) 100000 ex_l5)
  /\ lam (ex_l5 (KPda 30)) = 890880 + 6960 * 424 + 1000000
  /\ exempt ex_env POOL_SIZE (moved (KPda 30) (KWallet 1) 100000 ex_l5 (KPda 30)).
Proof.
  split; [|vm_compute; repeat split; auto; discriminate].
  exists ex_l5. split; [|exists (moved (KPda 30) (KWallet 1) 100000 ex_l5); split; [|reflexivity]].
  - exists 82, 165, ex_l4. split.
    + exists ex_l1. split; [apply made_init; vm_compute; try reflexivity; try discriminate; split; discriminate|].
      exists ex_l2. split; [apply made_init; vm_compute; try reflexivity; try discriminate; split; discriminate|].
      exists ex_l3. split; apply made_init; vm_compute; try reflexivity; try discriminate; split; discriminate.
    + pose proof (token_idle _ ex_l4_nonneg) as T.
      exists ex_l4. split; [exact T|]. exists ex_l4. split; [unfold top_up; replace (lam (ex_l4 (KWallet 20)) <? rent ex_env (len (ex_l4 (KWallet 20)))) with false by (vm_compute; reflexivity); reflexivity|].
      do 4 (exists ex_l4; split; [exact T|]).
      unfold charge_fee. change (0 <? 1000000) with true. cbn [opt].
      split; [vm_compute; reflexivity|]. split; [vm_compute; reflexivity|]. split; [vm_compute; split; discriminate|reflexivity].
  - unfold pool_pays. cbn [run1]. change (0 <? 100000) with true. cbn [opt].
    split; [vm_compute; reflexivity|]. split; [vm_compute; reflexivity|]. split; [vm_compute; split; discriminate|].
    split; [reflexivity|vm_compute; discriminate].
Qed.

Print Assumptions C66_authority_keeps_its_sol.
Print Assumptions C66_who_can_lose_sol.
Print Assumptions C66_claims_are_exact.
Print Assumptions C66_advance_is_repaid.
Print Assumptions C66_accounts_stay.
Print Assumptions C66_pool_starts_funded.
Print Assumptions C66_advance_succeeds.
Print Assumptions C66_account_cost.
