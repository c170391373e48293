(** * Tokens of every mint, over all accounts *)
From Coq Require Import ZArith List Bool Lia ZifyBool.
From Verif Require Import Base MathModel CurveModel FeeModel ConfigModel PoolModel TxModel SystemModel
  Lib Spec InvProofs InvReach Frame SpecHist AcctModel AcctSim AcctInv AcctStep AcctSpec.
Import ListNotations.
Open Scope Z_scope.

(** ** The difference between two banks, mint by mint *)
Definition moves (b b' : bank) (d : Z -> Z) : Prop :=
  (exists s, covers b b' s)
  /\ forall m l, NoDup l -> covers b b' l -> total b' m l = total b m l + d m.

Lemma total_app b m l l' : total b m (l ++ l') = total b m l + total b m l'.
Proof. induction l; simpl; [reflexivity|]. rewrite IHl. lia. Qed.
Lemma total_same b b' m l : (forall y, In y l -> b_acc b' y = b_acc b y) -> total b' m l = total b m l.
Proof.
  induction l as [|y l IH]; intros H; simpl; [reflexivity|].
  rewrite IH by (intros; apply H; right; assumption).
  unfold held. rewrite (H y) by (left; reflexivity). reflexivity.
Qed.

Lemma extend (l s : list addr) : NoDup l -> exists e, NoDup (l ++ e) /\ (forall y, In y e -> ~ In y l)
  /\ forall y, In y s -> In y (l ++ e).
Proof.
  revert l. induction s as [|x s IH]; intros l N.
  - exists []. rewrite app_nil_r. repeat split; auto; intros; contradiction.
  - destruct (IH l N) as (e & E1 & E2 & E3). destruct (in_dec addr_dec x (l ++ e)) as [I|I].
    + exists e. repeat split; auto. intros y [<-|Y]; auto.
    + exists (e ++ [x]). repeat split.
      * rewrite app_assoc. apply NoDup_rev in E1. rewrite <- rev_involutive. apply NoDup_rev.
        rewrite rev_app_distr. simpl. constructor; [|exact E1]. rewrite <- in_rev. exact I.
      * intros y Y. apply in_app_or in Y. destruct Y as [Y|[<-|[]]]; [apply E2; exact Y|].
        intros X. apply I. apply in_or_app. left. exact X.
      * intros y [<-|Y].
        { rewrite app_assoc. apply in_or_app. right. left. reflexivity. }
        { rewrite app_assoc. apply in_or_app. left. auto. }
Qed.

Lemma moves_refl b : moves b b (fun _ => 0).
Proof. split; [exists []; right; reflexivity|]. intros. lia. Qed.

Lemma moves_trans a b c d e : moves a b d -> moves b c e -> moves a c (fun m => d m + e m).
Proof.
  intros ((s & S) & D) ((t & T) & E). split.
  - exists (s ++ t). intros y. destruct (S y) as [I|<-]; [left; apply in_or_app; left; exact I|].
    destruct (T y) as [I|<-]; [left; apply in_or_app; right; exact I|]. right. reflexivity.
  - intros m l N C. destruct (extend l (s ++ t) N) as (x & X1 & X2 & X3).
    assert (C1 : covers a b (l ++ x)).
    { intros y. destruct (S y) as [I|I]; [left; apply X3, in_or_app; left; exact I|right; exact I]. }
    assert (C2 : covers b c (l ++ x)).
    { intros y. destruct (T y) as [I|I]; [left; apply X3, in_or_app; right; exact I|right; exact I]. }
    pose proof (D m _ X1 C1) as D1. pose proof (E m _ X1 C2) as E1. rewrite !total_app in D1, E1.
    assert (Z0 : total c m x = total a m x).
    { apply total_same. intros y Y. destruct (C y) as [I|I]; [|exact I]. exfalso. exact (X2 y Y I). }
    lia.
Qed.
Lemma moves_ext b b' d e : (forall m, d m = e m) -> moves b b' d -> moves b b' e.
Proof. intros H (S & D). split; [exact S|]. intros. rewrite <- H. auto. Qed.

Definition worth (m : Z) (x : acct) : Z := match x with ATok m' _ n => if m' =? m then n else 0 | _ => 0 end.
Lemma held_put_same b a x m : held (put b a x) m a = worth m x.
Proof. unfold held. rewrite put_same. destruct x; reflexivity. Qed.
Lemma held_put_other b a x m y : a <> y -> held (put b a x) m y = held b m y.
Proof. intros N. unfold held. rewrite put_other by assumption. reflexivity. Qed.

Lemma moves_put b a x : moves b (put b a x) (fun m => worth m x - held b m a).
Proof.
  split.
  - exists [a]. intros y. destruct (addr_dec a y) as [->|N]; [left; left; reflexivity|].
    right. apply put_other. exact N.
  - intros m l N C.
    assert (F : forall l, ~ In a l -> total (put b a x) m l = total b m l).
    { intros l0 H. apply total_same. intros y Y. apply put_other. intros ->. contradiction. }
    destruct (in_dec addr_dec a l) as [I|I].
    + clear C. induction l as [|y l IH]; [contradiction|]. inversion N; subst. simpl. destruct I as [->|I].
      * rewrite held_put_same, F by assumption. lia.
      * assert (a <> y) by (intros ->; contradiction). rewrite held_put_other by assumption. rewrite IH by assumption. lia.
    + rewrite F by assumption. destruct (C a) as [X|X]; [contradiction|]. rewrite put_same in X.
      unfold held. rewrite <- X. destruct x; simpl; lia.
Qed.

(** ** Token program *)
Lemma moves_credit b a m n b' : credit b a m n = Ok b' -> moves b b' (fun k => if m =? k then n else 0).
Proof.
  intros H. apply credit_ok in H. destruct H as (o & x & L & N & M & ->).
  eapply moves_ext; [|apply moves_put]. intros k. simpl. unfold held. rewrite L. destruct (m =? k); lia.
Qed.
Lemma moves_credit_sol b a n b' : credit_sol b a n = Ok b' -> moves b b' (fun _ => 0).
Proof.
  unfold credit_sol. intros H. apply bind_ok in H. destruct H as (? & _ & H).
  destruct (b_acc b a) as [[]|] eqn:L; apply Ok_inj in H; subst b'; try apply moves_refl.
  eapply moves_ext; [|apply moves_put]. intros k. simpl. unfold held. rewrite L. reflexivity.
Qed.
Lemma moves_debit b a m s n b' : debit b a m s n = Ok b' -> moves b b' (fun k => if m =? k then - n else 0).
Proof.
  intros H. apply debit_ok in H. destruct H as (x & L & N & ->).
  eapply moves_ext; [|apply moves_put]. intros k. simpl. unfold held. rewrite L. destruct (m =? k); lia.
Qed.

(** What the delivered transfers add to mint [m]. *)
Definition paid_in (mo : token -> Z) (ts : list transfer) (m : Z) : Z :=
  fold_right (fun t s => (if leaves t then match t_token t with TSol => 0 | k => if mo k =? m then t_amount t else 0 end
                          else 0) + s) 0 ts.
Lemma moves_deliver mo ts : forall b ds b', deliver b mo ts ds = Ok b' -> moves b b' (paid_in mo ts).
Proof.
  induction ts as [|t ts IH]; intros b ds b' H; cbn [deliver] in H.
  - apply Ok_inj in H. subst. apply moves_refl.
  - destruct (leaves t) eqn:L.
    + destruct (take_dst (t_token t) ds) as [[a ds']|]; [|discriminate H].
      apply bind_ok in H. destruct H as (b1 & C & H). apply IH in H.
      assert (M : moves b b1 (fun m => match t_token t with TSol => 0 | k => if mo k =? m then t_amount t else 0 end)).
      { destruct (t_token t); try (apply moves_credit in C; exact C). eapply moves_credit_sol; eauto. }
      eapply moves_ext; [|exact (moves_trans _ _ _ _ _ M H)]. intros m. cbn [paid_in fold_right]. rewrite L. reflexivity.
    + eapply moves_ext; [|eapply IH; exact H]. intros m. cbn [paid_in fold_right]. rewrite L. unfold paid_in. lia.
Qed.
Lemma paid_in_mints bm qm lm ts m : paid_in (mints bm qm lm) ts m =
  (if bm =? m then sent TBase ts else 0) + (if qm =? m then sent TQuote ts else 0)
  + (if lm =? m then sent TLp ts else 0).
Proof.
  induction ts as [|t ts IH].
  - simpl. destruct (bm =? m), (qm =? m), (lm =? m); reflexivity.
  - unfold paid_in, sent in *. cbn [fold_right]. rewrite IH. clear IH. destruct (leaves t); [|lia].
    destruct (t_token t); cbn [mints]; destruct (bm =? m), (qm =? m), (lm =? m); lia.
Qed.

(** ** The transfers of each handler *)
Definition from_user (t : transfer) : bool :=
  match t_from t, t_to t with PKey _, PPool => true | _, _ => false end.
Definition abroad (t : transfer) : bool :=
  match t_from t, t_to t with PPool, (PDamm | PEscrow | PLock _ | PMint) => true | _, _ => false end.
Definition is_lp_token (k : token) : bool := match k with TLp => true | _ => false end.
Definition is_sol (k : token) : bool := match k with TSol => true | _ => false end.
Definition is_base (k : token) : bool := match k with TBase => true | _ => false end.
Definition is_quote (k : token) : bool := match k with TQuote => true | _ => false end.
Definition input_token (d : direction) : token := match d with BaseToQuote => TBase | QuoteToBase => TQuote end.

Definition expected (o : op) (t : transfer) : bool :=
  match o with
  | OSwap x => (leaves t && (is_base (t_token t) || is_quote (t_token t)))
               || (from_user t && same_token (t_token t) (input_token (sa_dir x)))
  | OClaimPartner _ _ _ _ | OClaimCreator _ _ _ _ | OClaimProtocol _ _ _ =>
    leaves t && (is_base (t_token t) || is_quote (t_token t))
  | OZap _ _ b _ _ => leaves t && (if b then is_base (t_token t) else is_quote (t_token t))
  | OPartnerSurplus _ _ | OCreatorSurplus _ _ | OMigrationFee _ _ _ => leaves t && is_quote (t_token t)
  | OLeftover => leaves t && is_base (t_token t)
  | OPartnerCreationFee _ _ | OProtocolCreationFee _ => leaves t && is_sol (t_token t)
  | OCreateLocker | OMigrateV1 _ _ | OMigrateV2 _ _ => abroad t && (is_base (t_token t) || is_quote (t_token t))
  | OLockLp _ => abroad t && is_lp_token (t_token t)
  | OClaimLp _ => leaves t && is_lp_token (t_token t)
  | _ => false
  end.

Definition shaped (o : op) (r : res world) : Prop :=
  forall w, r = Ok w -> Forall (fun t => expected o t = true) (w_log w).
Definition good (o : op) (w : world) : Prop := Forall (fun t => expected o t = true) (w_log w).
Lemma sp_ok o w : good o w -> shaped o (Ok w). Proof. intros G x H. apply Ok_inj in H. subst x; exact G. Qed.
Lemma sp_err o e : shaped o (Err e). Proof. intros x H. discriminate H. Qed.
Lemma sp_same {A} o (m : res A) f : (forall x, shaped o (f x)) -> shaped o (bind m f).
Proof. intros H. destruct m; simpl; [apply H|apply sp_err]. Qed.
Lemma sp_bind o r f : shaped o r -> (forall a, good o a -> shaped o (f a)) -> shaped o (bind r f).
Proof. intros H K. destruct r; simpl; [apply K; exact (H _ eq_refl)|apply sp_err]. Qed.
Lemma good_log o w t : good o w -> expected o t = true -> good o (log w t).
Proof. intros G E. unfold good, log. simpl. apply Forall_app. split; [exact G|]. constructor; auto. Qed.
Lemma sp_pay_base o w to n : good o w -> expected o (mkTransfer TBase PPool to n) = true -> shaped o (pay_base w to n).
Proof. intros. unfold pay_base. apply sp_same. intros. apply sp_ok, good_log; assumption. Qed.
Lemma sp_pay_quote o w to n : good o w -> expected o (mkTransfer TQuote PPool to n) = true -> shaped o (pay_quote w to n).
Proof. intros. unfold pay_quote. apply sp_same. intros. apply sp_ok, good_log; assumption. Qed.
Lemma sp_recv_base o w to n : good o w -> expected o (mkTransfer TBase to PPool n) = true -> shaped o (recv_base w to n).
Proof. intros. unfold recv_base. apply sp_same. intros. apply sp_ok, good_log; assumption. Qed.
Lemma sp_recv_quote o w to n : good o w -> expected o (mkTransfer TQuote to PPool n) = true -> shaped o (recv_quote w to n).
Proof. intros. unfold recv_quote. apply sp_same. intros. apply sp_ok, good_log; assumption. Qed.
Lemma sp_pay_lamports o w to n : good o w -> expected o (mkTransfer TSol PPool to n) = true -> shaped o (pay_lamports w to n).
Proof. intros. unfold pay_lamports. apply sp_same. intros. apply sp_ok, good_log; assumption. Qed.
Lemma sp_pay_lp o w to n : good o w -> expected o (mkTransfer TLp PPool to n) = true -> shaped o (pay_lp w to n).
Proof. intros. unfold pay_lp. apply sp_same. intros. apply sp_ok, good_log; assumption. Qed.
Lemma sp_burn_rest o w n : good o w -> (forall k, expected o (mkTransfer TBase PPool PMint k) = true) ->
  shaped o (burn_rest w n).
Proof.
  intros. unfold burn_rest. repeat (apply sp_same; intros). destruct (0 <? _); [|apply sp_ok; assumption].
  unfold burn_base. apply sp_same. intros. apply sp_ok, good_log; auto.
Qed.
Lemma sp_finish o w n : good o w -> shaped o (finish_curve w n).
Proof.
  intros. unfold finish_curve. cbv zeta. destruct (is_curve_complete _ _); [|apply sp_ok; assumption].
  repeat (apply sp_same; intros). apply sp_ok. assumption.
Qed.

Ltac spx := first [assumption | reflexivity | (intros; reflexivity)].
Ltac spstep :=
  match goal with
  | |- shaped _ (Err _) => apply sp_err
  | |- shaped _ (Ok _) => apply sp_ok; unfold good in *; simpl; solve [assumption]
  | |- shaped _ (pay_base _ _ _) => apply sp_pay_base; spx
  | |- shaped _ (pay_quote _ _ _) => apply sp_pay_quote; spx
  | |- shaped _ (recv_base _ _ _) => apply sp_recv_base; spx
  | |- shaped _ (recv_quote _ _ _) => apply sp_recv_quote; spx
  | |- shaped _ (pay_lamports _ _ _) => apply sp_pay_lamports; spx
  | |- shaped _ (pay_lp _ _ _) => apply sp_pay_lp; spx
  | |- shaped _ (burn_rest _ _) => apply sp_burn_rest; spx
  | |- shaped _ (@bind world world _ _) => eapply sp_bind
  | |- shaped _ (bind _ _) => apply sp_same; intros
  | |- shaped _ (if ?b then _ else _) => destruct b eqn:?
  | |- shaped _ (let '(_, _) := ?x in _) => destruct x eqn:?
  | |- shaped _ (match ?x with _ => _ end) => destruct x eqn:?
  | |- forall _, _ => intros
  end.

Lemma exec_shape w o : w_log w = [] -> pool_op o = true -> shaped o (exec w o).
Proof.
  intros L P. assert (G : good o w) by (unfold good; rewrite L; constructor).
  unfold exec. apply sp_same; intros _. destruct o; try discriminate P.
  - rewrite do_swap_eq. cbv zeta. do 8 (apply sp_same; intros).
    eapply sp_bind; [|intros; apply sp_finish; assumption].
    assert (G' : good (OSwap a) (set_w_pool w x6)) by exact G.
    unfold swap_transfers. destruct (sa_dir a) eqn:D; repeat spstep.
    + apply sp_recv_base; [exact G'|]. simpl. rewrite D. reflexivity.
    + apply sp_recv_quote; [exact G'|]. simpl. rewrite D. reflexivity.
  - unfold claim_partner_fee. repeat spstep.
  - unfold claim_creator_fee. repeat spstep.
  - unfold claim_protocol_fee. repeat spstep.
  - unfold zap_protocol_fee. repeat spstep.
  - unfold withdraw_partner_surplus. cbv zeta. repeat spstep.
  - unfold withdraw_creator_surplus. cbv zeta. repeat spstep.
  - unfold withdraw_migration_fee. cbv zeta. repeat spstep.
  - unfold withdraw_leftover. cbv zeta. repeat spstep.
  - unfold claim_partner_creation_fee. cbv zeta. repeat spstep.
  - unfold claim_protocol_creation_fee. cbv zeta. repeat spstep.
  - unfold transfer_creator. cbv zeta. repeat spstep.
  - unfold create_locker. cbv zeta. repeat spstep.
  - unfold create_v1_metadata. repeat spstep.
  - unfold migrate_v1. cbv zeta. repeat spstep.
  - unfold migrate_v2. cbv zeta. repeat spstep.
  - unfold lock_lp. repeat spstep.
  - unfold claim_lp. repeat spstep.
Qed.

(** ** Sums over the transfers *)
Definition user_in (k : token) (l : list transfer) : Z :=
  fold_right (fun t s => if from_user t && same_token k (t_token t) then t_amount t + s else s) 0 l.

Lemma net_split k l : Forall (fun t => leaves t = true \/ from_user t = true \/ abroad t = true) l ->
  net k l = user_in k l - sent k l - outflow k l.
Proof.
  induction 1 as [|t l H F IH]; [reflexivity|].
  unfold user_in, sent, outflow in *. cbn [net fold_right]. rewrite IH. clear IH F.
  unfold flow, leaves, from_user, abroad in *. destruct t as [tk tf tt ta]. simpl in *.
  destruct tf, tt; simpl in *; try (exfalso; intuition discriminate);
  destruct k, tk; simpl; lia.
Qed.

Lemma expected_kinds o t : expected o t = true -> leaves t = true \/ from_user t = true \/ abroad t = true.
Proof. destruct o; simpl; try discriminate; destruct (leaves t), (from_user t), (abroad t); auto. Qed.

Lemma sum_zero (f : transfer -> Z) l : Forall (fun t => f t = 0) l -> fold_right (fun t s => f t + s) 0 l = 0.
Proof. induction 1; simpl; lia. Qed.

Definition sends_abroad (o : op) : bool :=
  match o with OCreateLocker | OMigrateV1 _ _ | OMigrateV2 _ _ | OLockLp _ => true | _ => false end.
Definition is_swap (o : op) : bool := match o with OSwap _ => true | _ => false end.

Lemma user_in_none o k l : is_swap o = false -> Forall (fun t => expected o t = true) l -> user_in k l = 0.
Proof.
  intros N. induction 1 as [|t l H F IH]; [reflexivity|]. unfold user_in in *. cbn [fold_right]. rewrite IH.
  assert (E : from_user t = false).
  { destruct t as [tk tf tt ta]. unfold expected, leaves, abroad, from_user in *. simpl in *.
    destruct o; try discriminate N; try discriminate H; destruct tf, tt; try reflexivity; discriminate H. }
  rewrite E. reflexivity.
Qed.
Lemma outflow_none o k l : sends_abroad o = false -> Forall (fun t => expected o t = true) l -> outflow k l = 0.
Proof.
  intros N. induction 1 as [|t l H F IH]; [reflexivity|]. unfold outflow in *. cbn [fold_right]. rewrite IH.
  destruct t as [tk tf tt ta]. unfold expected, leaves, abroad, from_user in *. simpl in *.
  destruct o; try discriminate N; try discriminate H; destruct tf, tt; try reflexivity; discriminate H.
Qed.
Lemma sent_none o k l : sends_abroad o = true -> Forall (fun t => expected o t = true) l -> sent k l = 0.
Proof.
  intros N. induction 1 as [|t l H F IH]; [reflexivity|]. unfold sent in *. cbn [fold_right]. rewrite IH.
  destruct t as [tk tf tt ta]. unfold expected, leaves, abroad, from_user in *. simpl in *.
  destruct o; try discriminate N; try discriminate H; destruct tf, tt; try reflexivity; discriminate H.
Qed.
Lemma swap_in x k l : Forall (fun t => expected (OSwap x) t = true) l ->
  user_in k l = if same_token k (input_token (sa_dir x)) then taken l else 0.
Proof.
  induction 1 as [|t l H F IH]; [destruct (same_token _ _); reflexivity|].
  unfold user_in, taken in *. cbn [fold_right]. rewrite IH. clear IH F.
  destruct t as [tk tf tt ta]. unfold expected, leaves, from_user in *. simpl in *.
  destruct tf, tt; simpl in *; try discriminate H; try reflexivity.
  destruct k, tk, (sa_dir x); simpl in *; try discriminate H; try reflexivity; lia.
Qed.
(** Tokens of a kind that the handler never sends. *)
Lemma sent_other o k l : Forall (fun t => expected o t = true) l ->
  (forall t, expected o t = true -> leaves t = true -> t_token t <> k) -> sent k l = 0.
Proof.
  intros F N. induction F as [|t l H F IH]; [reflexivity|]. unfold sent in *. cbn [fold_right]. rewrite IH.
  destruct (leaves t) eqn:L; [|reflexivity]. specialize (N t H L). destruct (t_token t), k; congruence.
Qed.

(** The vaults follow the transfers. *)
Lemma ran_vaults b a p c o v w wa wa' b1 : pool_op o = true -> ran b a p c o v w wa wa' b1 ->
  Forall (fun t => expected o t = true) (w_log w)
  /\ moved wa o = w_log w
  /\ w_bvault w - w_bvault v = net TBase (w_log w) /\ w_qvault w - w_qvault v = net TQuote (w_log w).
Proof.
  intros PO RN. destruct RN.
  pose proof (reachable_inv _ rn_reach) as I.
  destruct (exec_frame _ _ _ I rn_exec') as (FR & _). destruct (fr_log _ _ FR) as (l & L & B & Q & _).
  destruct (sim_eqs _ _ _ rn_sim) as (_ & _ & _ & S1 & S2 & _ & _ & _ & _ & _ & S3).
  rewrite S3 in L. apply app_inv_head in L. subst l.
  assert (L0 : w_log v = []) by (rewrite rn_view; reflexivity).
  split; [exact (exec_shape _ _ L0 PO _ rn_exec)|].
  split.
  - unfold moved, step. rewrite rn_exec', S3, skipn_app, skipn_all, PeanoNat.Nat.sub_diag. reflexivity.
  - rewrite S1, (ag_bvault _ _ rn_agree) in B. rewrite S2, (ag_qvault _ _ rn_agree) in Q. lia.
Qed.

Lemma ran_moves b a p c o v w wa wa' b1 : ran b a p c o v w wa wa' b1 ->
  moves b b1 (fun m => (if pa_bmint p =? m then w_bvault w - w_bvault v else 0)
                       + (if c_quote_mint c =? m then w_qvault w - w_qvault v else 0)).
Proof.
  intros RN. destruct RN. subst b1. unfold stored.
  assert (N1 : a <> pa_bvault p) by congruence. assert (N2 : a <> pa_qvault p) by congruence.
  assert (N3 : pa_bvault p <> pa_qvault p) by congruence.
  rewrite put_other, rn_tb by congruence. rewrite put_other, put_other, rn_tq by congruence.
  match goal with |- moves _ (put (put (put _ _ ?x) _ _) _ _) _ => set (pa := x) end.
  eapply moves_ext; [|eapply moves_trans; [eapply moves_trans; [apply moves_put|apply moves_put]|apply moves_put]].
  intros m. cbv beta. rewrite !held_put_other by congruence. unfold held. rewrite rn_pool, rn_tb, rn_tq. simpl.
  destruct (pa_bmint p =? m), (c_quote_mint c =? m); lia.
Qed.

(** ** Every instruction that runs on a pool *)
Definition lost (p : poolacct) (c : config) (l : list transfer) (m : Z) : Z :=
  (if pa_bmint p =? m then outflow TBase l else 0) + (if c_quote_mint c =? m then outflow TQuote l else 0).
Definition accounted (b : bank) (a : addr) (o : op) (b' : bank) (ok : Z -> Prop) : Prop :=
  exists p c v w wa wa' b1, ran b a p c o v w wa wa' b1 /\ moved wa o = w_log w
    /\ Forall (fun t => expected o t = true) (w_log w)
    /\ exists d, moves b b' d /\ forall m, ok m -> d m = - lost p c (w_log w) m.
Definition any (m : Z) : Prop := True.

(** Handlers whose transfers are delivered to accounts. *)
Lemma delivered b a p o cfg bv qv m lp w b1 b' mo ds :
  binv b -> b_acc b a = Some (APool p) -> pool_op o = true -> meta_op o = false -> is_swap o = false ->
  sends_abroad o = false ->
  cfg = pa_config p -> bv = pa_bvault p -> qv = pa_qvault p -> m = meta_at b a -> lp = lp_at b a ->
  run_on b a cfg bv qv m lp o = Ok (w, b1) -> deliver b1 mo (w_log w) ds = Ok b' ->
  (forall c, b_acc b (Ext (pa_config p)) = Some (AConfig c) -> Forall (fun t => expected o t = true) (w_log w) ->
    forall k, paid_in mo (w_log w) k = (if pa_bmint p =? k then sent TBase (w_log w) else 0)
                                       + (if c_quote_mint c =? k then sent TQuote (w_log w) else 0)) ->
  accounted b a o b' any.
Proof.
  intros I P PO MO SW AB -> -> -> -> -> H D K.
  destruct (run_on_ran _ _ _ _ _ _ _ _ _ _ _ I P PO eq_refl eq_refl eq_refl eq_refl eq_refl H)
    as (c & v & wa & wa' & RN).
  destruct (ran_vaults _ _ _ _ _ _ _ _ _ _ PO RN) as (F & MV & B & Q).
  exists p, c, v, w, wa, wa', b1. split; [exact RN|]. split; [exact MV|]. split; [exact F|].
  eexists. split; [eapply moves_trans; [eapply ran_moves; exact RN|eapply moves_deliver; exact D]|].
  intros k _. cbv beta. rewrite (K c (rn_config _ _ _ _ _ _ _ _ _ _ RN) F). unfold lost.
  assert (F' : Forall (fun t => leaves t = true \/ from_user t = true \/ abroad t = true) (w_log w)).
  { eapply Forall_impl; [|exact F]. intros t. apply expected_kinds. }
  rewrite B, Q, !net_split, !(user_in_none o), !(outflow_none o) by assumption.
  destruct (pa_bmint p =? k), (c_quote_mint c =? k); lia.
Qed.

(** Handlers that pay other programs only. *)
Lemma left_abroad b a p o cfg bv qv m lp w b1 :
  binv b -> b_acc b a = Some (APool p) -> pool_op o = true -> meta_op o = false -> is_swap o = false ->
  sends_abroad o = true \/ (forall t, expected o t = false) ->
  cfg = pa_config p -> bv = pa_bvault p -> qv = pa_qvault p -> m = meta_at b a -> lp = lp_at b a ->
  run_on b a cfg bv qv m lp o = Ok (w, b1) -> accounted b a o b1 any.
Proof.
  intros I P PO MO SW AB -> -> -> -> -> H.
  destruct (run_on_ran _ _ _ _ _ _ _ _ _ _ _ I P PO eq_refl eq_refl eq_refl eq_refl eq_refl H)
    as (c & v & wa & wa' & RN).
  destruct (ran_vaults _ _ _ _ _ _ _ _ _ _ PO RN) as (F & MV & B & Q).
  exists p, c, v, w, wa, wa', b1. split; [exact RN|]. split; [exact MV|]. split; [exact F|].
  eexists. split; [eapply ran_moves; exact RN|].
  intros k _. cbv beta. unfold lost.
  assert (F' : Forall (fun t => leaves t = true \/ from_user t = true \/ abroad t = true) (w_log w)).
  { eapply Forall_impl; [|exact F]. intros t. apply expected_kinds. }
  assert (SN : forall k, sent k (w_log w) = 0).
  { intros k0. destruct AB as [AB|AB]; [eapply sent_none; eauto|].
    destruct (w_log w); [reflexivity|]. inversion F; subst. rewrite AB in *. discriminate. }
  rewrite B, Q, !net_split, !(user_in_none o), !SN by assumption.
  destruct (pa_bmint p =? k), (c_quote_mint c =? k); lia.
Qed.

Lemma base_mint b a p m u : binv b -> b_acc b a = Some (APool p) -> has_mint b (pa_bvault p) m = Ok u -> m = pa_bmint p.
Proof.
  intros I P H. apply has_mint_ok in H. destruct H as (o & n & H).
  destruct (bi_pool _ I _ _ P) as (c & nb & nq & w & _ & _ & _ & _ & _ & TB & _). congruence.
Qed.
Lemma quote_mint b a p c m u : binv b -> b_acc b a = Some (APool p) ->
  b_acc b (Ext (pa_config p)) = Some (AConfig c) -> has_mint b (pa_qvault p) m = Ok u -> m = c_quote_mint c.
Proof.
  intros I P C H. apply has_mint_ok in H. destruct H as (o & n & H).
  destruct (bi_pool _ I _ _ P) as (c0 & nb & nq & w & C0 & _ & _ & _ & _ & _ & TQ & _). congruence.
Qed.

Ltac none := eapply sent_other; [eassumption|];
  let tk := fresh in let tf := fresh in let tt := fresh in let ta := fresh in
  intros [tk tf tt ta]; unfold leaves; simpl; destruct tk; simpl; try discriminate;
  destruct tf, tt; simpl; congruence.

Lemma swap_accounted b pool config bvault qvault bmint qmint inp out referral signer mode a0 a1 slot now v b' :
  let i := ISwap pool config bvault qvault bmint qmint inp out referral signer mode a0 a1 slot now v in
  binv b -> ix b i = Ok b' -> exists o, runs b i = Some (pool, o) /\ accounted b pool o b' any.
Proof.
  intros i I H. eexists. split; [reflexivity|]. subst i. simpl in H. unfold exec_swap in H.
  do 6 bo H. chk. bo H. destruct v6 as [[mi oi] ni]. apply load_tok_ok in E5. do 2 bo H. bo H.
  destruct v8 as [w b1]. cbv zeta in H. bo H. rewrite E5.
  set (d := if mi =? bmint then BaseToQuote else QuoteToBase) in *.
  match type of E8 with run_on _ _ _ _ _ _ _ ?x = _ => set (o := x) in * end.
  destruct (run_on_ran _ _ _ o _ _ _ _ _ _ _ I E eq_refl (eq_sym E2) (eq_sym E0) (eq_sym E1) eq_refl eq_refl E8)
    as (c & v9 & wa & wa' & RN).
  destruct (ran_vaults _ _ _ _ o _ _ _ _ _ eq_refl RN) as (F & MV & B & Q).
  exists v0, c, v9, w, wa, wa', b1. split; [exact RN|]. split; [exact MV|]. split; [exact F|].
  eexists. split.
  { eapply moves_trans; [eapply moves_trans; [eapply ran_moves; exact RN|eapply moves_debit; exact E9]|].
    eapply moves_deliver; exact H. }
  intros k _. cbv beta. rewrite paid_in_mints. unfold lost.
  assert (F' : Forall (fun t => leaves t = true \/ from_user t = true \/ abroad t = true) (w_log w)).
  { eapply Forall_impl; [|exact F]. intros t. apply expected_kinds. }
  subst bvault qvault config.
  pose proof (base_mint _ _ _ _ _ I E E3). pose proof (quote_mint _ _ _ _ _ _ I E (rn_config _ _ _ _ _ _ _ _ _ _ RN) E4).
  subst bmint qmint.
  assert (SL : sent TLp (w_log w) = 0) by none.
  rewrite B, Q, !net_split, !(outflow_none o), SL by (assumption || reflexivity).
  unfold o in F. rewrite !(swap_in _ _ _ F). cbn [sa_dir]. clearbody d.
  destruct d; cbn [input_token same_token];
    destruct (pa_bmint v0 =? k), (c_quote_mint c =? k), (0 =? k); lia.
Qed.

Lemma claim_partner_accounted b pool config bvault qvault bmint qmint ta tb s mb mq b' :
  binv b -> exec_claim_partner b pool config bvault qvault bmint qmint ta tb s mb mq = Ok b' ->
  accounted b pool (OClaimPartner s s mb mq) b' any.
Proof.
  intros I H. unfold exec_claim_partner in H. do 11 bo H. chk. bo H. destruct v10 as [w b1]. subst.
  eapply delivered; [exact I|eassumption|reflexivity|reflexivity|reflexivity|reflexivity| | | | | |exact E10|exact H|]; auto.
  intros c C F k. rewrite paid_in_mints. assert (SL : sent TLp (w_log w) = 0) by none. rewrite SL.
  assert (c = v) by congruence. subst c. destruct (0 =? k); lia.
Qed.
Lemma claim_creator_accounted b pool bvault qvault bmint qmint ta tb s mb mq b' :
  binv b -> exec_claim_creator b pool bvault qvault bmint qmint ta tb s mb mq = Ok b' ->
  accounted b pool (OClaimCreator s s mb mq) b' any.
Proof.
  intros I H. unfold exec_claim_creator in H. do 8 bo H. chk. bo H. destruct v7 as [w b1]. subst.
  eapply delivered; [exact I|eassumption|reflexivity|reflexivity|reflexivity|reflexivity| | | | | |exact E7|exact H|]; auto.
  intros c C F k. rewrite paid_in_mints. assert (SL : sent TLp (w_log w) = 0) by none. rewrite SL.
  pose proof (quote_mint _ _ _ _ _ _ I E C E6). subst qmint. destruct (0 =? k); lia.
Qed.
Lemma claim_protocol_accounted b pool config bvault qvault bmint qmint ta tb op s mb mq b' :
  binv b -> exec_claim_protocol b pool config bvault qvault bmint qmint ta tb op s mb mq = Ok b' ->
  accounted b pool (OClaimProtocol s mb mq) b' any.
Proof.
  intros I H. unfold exec_claim_protocol in H. do 10 bo H. chk. bo H. destruct v9 as [w b1]. do 2 bo H. subst.
  eapply delivered; [exact I|eassumption|reflexivity|reflexivity|reflexivity|reflexivity| | | | | |exact E9|exact H|]; auto.
  intros c C F k. rewrite paid_in_mints. assert (SL : sent TLp (w_log w) = 0) by none. rewrite SL.
  assert (c = v) by congruence. subst c. destruct (0 =? k); lia.
Qed.
Lemma zap_accounted b pool config vault mint receiver op s ma al ok b' :
  let i := IZap pool config vault mint receiver op s ma al ok in
  binv b -> ix b i = Ok b' -> exists o, runs b i = Some (pool, o) /\ accounted b pool o b' any.
Proof.
  intros i I H. subst i. simpl in H. unfold exec_zap in H. do 6 bo H. cbv zeta in H. bo H. chk. bo H.
  destruct v6 as [w b1]. do 2 bo H. eexists. simpl. rewrite E0. split; [reflexivity|].
  assert (EB : (if mint =? pa_bmint v0 then vault else pa_bvault v0) = pa_bvault v0)
    by (rewrite E5; destruct (mint =? pa_bmint v0); reflexivity).
  assert (EQ : (if mint =? pa_bmint v0 then pa_qvault v0 else vault) = pa_qvault v0)
    by (rewrite E5; destruct (mint =? pa_bmint v0); reflexivity).
  eapply delivered; [exact I|eassumption|reflexivity|reflexivity|reflexivity|reflexivity| | | | | |exact E6|exact H|]; auto.
  intros c C F k. rewrite paid_in_mints. assert (SL : sent TLp (w_log w) = 0).
  { eapply sent_other; [exact F|]. intros [tk ? ? ?]; simpl; destruct (mint =? pa_bmint v0), tk; simpl;
    rewrite ?andb_false_r; congruence. }
  rewrite SL. apply require_ok in E4. destruct (mint =? pa_bmint v0) eqn:EM.
  - assert (SQ : sent TQuote (w_log w) = 0).
    { eapply sent_other; [exact F|]. intros [tk ? ? ?]; simpl; destruct tk; simpl; rewrite ?andb_false_r; congruence. }
    rewrite SQ. replace mint with (pa_bmint v0) by lia. repeat match goal with |- context [if ?x =? k then _ else _] => destruct (x =? k) end; lia.
  - assert (SQ : sent TBase (w_log w) = 0).
    { eapply sent_other; [exact F|]. intros [tk ? ? ?]; simpl; destruct tk; simpl; rewrite ?andb_false_r; congruence. }
    rewrite SQ. subst config. assert (c = v) by congruence. subst c. replace mint with (c_quote_mint v) by lia.
    repeat match goal with |- context [if ?x =? k then _ else _] => destruct (x =? k) end; lia.
Qed.
Lemma quote_payout_accounted b pool config qvault qmint dst o b' : pool_op o = true -> meta_op o = false ->
  is_swap o = false -> sends_abroad o = false ->
  (forall t, expected o t = true -> t_token t = TQuote) ->
  binv b -> exec_quote_payout b pool config qvault qmint dst o = Ok b' -> accounted b pool o b' any.
Proof.
  intros PO MO SW AB TQ I H. unfold exec_quote_payout in H. do 7 bo H. chk. bo H. destruct v6 as [w b1]. subst.
  eapply delivered; [exact I|eassumption|exact PO|exact MO|exact SW|exact AB| | | | | |exact E6|exact H|]; auto.
  intros c C F k. rewrite paid_in_mints.
  assert (SL : sent TLp (w_log w) = 0) by (eapply sent_other; [exact F|]; intros t T _; rewrite (TQ t T); discriminate).
  assert (SB : sent TBase (w_log w) = 0) by (eapply sent_other; [exact F|]; intros t T _; rewrite (TQ t T); discriminate).
  assert (c = v) by congruence. subst c.
  rewrite SL, SB. repeat match goal with |- context [if ?x =? k then _ else _] => destruct (x =? k) end; lia.
Qed.
Lemma leftover_accounted b pool config bvault bmint dst r b' :
  binv b -> exec_leftover b pool config bvault bmint dst r = Ok b' -> accounted b pool OLeftover b' any.
Proof.
  intros I H. unfold exec_leftover in H. do 8 bo H. chk. bo H. destruct v7 as [w b1]. subst.
  eapply delivered; [exact I|eassumption|reflexivity|reflexivity|reflexivity|reflexivity| | | | | |exact E7|exact H|]; auto.
  intros c C F k. rewrite paid_in_mints.
  assert (SL : sent TLp (w_log w) = 0) by none. assert (SQ : sent TQuote (w_log w) = 0) by none.
  rewrite SL, SQ. repeat match goal with |- context [if ?x =? k then _ else _] => destruct (x =? k) end; lia.
Qed.
Lemma partner_creation_accounted b pool config r s b' :
  binv b -> exec_partner_creation b pool config r s = Ok b' -> accounted b pool (OPartnerCreationFee s s) b' any.
Proof.
  intros I H. unfold exec_partner_creation in H. do 3 bo H. chk. bo H. destruct v2 as [w b1]. subst.
  eapply delivered; [exact I|eassumption|reflexivity|reflexivity|reflexivity|reflexivity| | | | | |exact E2|exact H|]; auto.
  intros c C F k. rewrite paid_in_mints.
  assert (SL : sent TLp (w_log w) = 0) by none. assert (SQ : sent TQuote (w_log w) = 0) by none.
  assert (SB : sent TBase (w_log w) = 0) by none.
  rewrite SL, SQ, SB. repeat match goal with |- context [if ?x =? k then _ else _] => destruct (x =? k) end; lia.
Qed.
Lemma protocol_creation_accounted b pool config op s b' :
  binv b -> exec_protocol_creation b pool config op s = Ok b' -> accounted b pool (OProtocolCreationFee s) b' any.
Proof.
  intros I H. unfold exec_protocol_creation in H. do 4 bo H. chk. bo H. destruct v3 as [w b1]. subst.
  eapply delivered; [exact I|eassumption|reflexivity|reflexivity|reflexivity|reflexivity| | | | | |exact E3|exact H|]; auto.
  intros c C F k. rewrite paid_in_mints.
  assert (SL : sent TLp (w_log w) = 0) by none. assert (SQ : sent TQuote (w_log w) = 0) by none.
  assert (SB : sent TBase (w_log w) = 0) by none.
  rewrite SL, SQ, SB. repeat match goal with |- context [if ?x =? k then _ else _] => destruct (x =? k) end; lia.
Qed.

Lemma transfer_creator_accounted b pool config s n meta b' :
  binv b -> exec_transfer_creator b pool config s n meta = Ok b' -> accounted b pool (OTransferCreator s n) b' any.
Proof.
  intros I H. unfold exec_transfer_creator in H. do 3 bo H. chk. bo H. bo H. destruct v3 as [w b1].
  apply Ok_inj in H. simpl in H. subst b'.
  eapply left_abroad; [exact I|eassumption|reflexivity|reflexivity|reflexivity| | | | | | |exact E3]; auto.
  destruct ((_ =? _) && _).
  - bo E2. bo E2. destruct v4 as [[m vp] l]. bo E2. chk. apply Ok_inj in E2. subst v2 vp.
    apply load_meta_ok in E5. symmetry. eapply meta_unique; eauto.
  - apply Ok_inj in E2. congruence.
Qed.
Lemma locker_accounted b pool config bvault bmint cr b' :
  binv b -> exec_locker b pool config bvault bmint cr = Ok b' -> accounted b pool OCreateLocker b' any.
Proof.
  intros I H. unfold exec_locker in H. do 6 bo H. chk. bo H. destruct v5 as [w b1].
  apply Ok_inj in H. simpl in H. subst b'.
  eapply left_abroad; [exact I|eassumption|reflexivity|reflexivity|reflexivity| | | | | | |exact E5]; auto.
Qed.
Lemma migrate_v2_accounted b pool config bvault qvault bmint qmint x now b' :
  binv b -> exec_migrate_v2 b pool config bvault qvault bmint qmint x now = Ok b' ->
  accounted b pool (OMigrateV2 x now) b' any.
Proof.
  intros I H. unfold exec_migrate_v2 in H. do 6 bo H. chk. bo H. destruct v5 as [w b1].
  apply Ok_inj in H. simpl in H. subst b'.
  eapply left_abroad; [exact I|eassumption|reflexivity|reflexivity|reflexivity| | | | | | |exact E5]; auto.
Qed.

Lemma metadata_accounted b pool config meta b' :
  binv b -> exec_metadata b pool config meta = Ok b' -> accounted b pool OCreateMetadata b' any.
Proof.
  intros I H. unfold exec_metadata in H. do 4 bo H. chk. apply require_ok in E2. apply unused_ok in E2.
  subst meta. bo H. destruct v3 as [w b1]. bo H. apply ok_or_ok in E3. apply Ok_inj in H. subst b'.
  assert (MA : meta_at b pool = None) by (unfold meta_at; rewrite E2; reflexivity).
  destruct (run_on_ran _ _ _ OCreateMetadata _ _ _ _ _ _ _ I E eq_refl (eq_sym E0) eq_refl eq_refl (eq_sym MA) eq_refl E1)
    as (c & v4 & wa & wa' & RN).
  destruct (ran_stored _ _ _ _ _ _ _ _ _ _ RN) as (S1 & S2 & S3 & S4 & S5 & S6 & S7).
  destruct (ran_vaults _ _ _ _ OCreateMetadata _ _ _ _ _ eq_refl RN) as (F & MV & B & Q).
  exists v, c, v4, w, wa, wa', b1. split; [exact RN|]. split; [exact MV|]. split; [exact F|].
  eexists. split; [eapply moves_trans; [eapply ran_moves; exact RN|apply moves_put]|].
  intros k _. cbv beta. unfold held. rewrite S7, E2 by (destruct RN; congruence).
  assert (L : w_log w = []) by (destruct (w_log w); [reflexivity|inversion F; discriminate]).
  rewrite B, Q, L. unfold lost. simpl. destruct (_ =? k), (_ =? k); reflexivity.
Qed.

Lemma migrate_v1_accounted b pool config bvault qvault meta lm ok lp b' :
  binv b -> exec_migrate_v1 b pool config bvault qvault meta lm ok lp = Ok b' ->
  accounted b pool (OMigrateV1 ok lp) b' (fun m => m <> lm).
Proof.
  intros I H. unfold exec_migrate_v1 in H. do 5 bo H. destruct v3 as [[m vp] l]. do 3 bo H. chk.
  apply load_meta_ok in E3. apply require_ok in E5, E6. apply unused_ok in E5, E6. subst vp.
  destruct (meta_unique _ _ _ _ _ I E3) as (-> & MA).
  bo H. destruct v6 as [w b1]. bo H. apply ok_or_ok in E7. apply Ok_inj in H. subst b'.
  destruct (run_on_ran _ _ _ (OMigrateV1 ok lp) _ _ _ _ _ _ _ I E eq_refl (eq_sym E2) (eq_sym E0) (eq_sym E1) (eq_sym MA) eq_refl E4)
    as (c & v7 & wa & wa' & RN).
  destruct (ran_stored _ _ _ _ _ _ _ _ _ _ RN) as (S1 & S2 & S3 & S4 & S5 & S6 & S7).
  destruct (ran_vaults _ _ _ _ (OMigrateV1 ok lp) _ _ _ _ _ eq_refl RN) as (F & MV & B & Q).
  exists v, c, v7, w, wa, wa', b1. split; [exact RN|]. split; [exact MV|]. split; [exact F|].
  assert (F' : Forall (fun t => leaves t = true \/ from_user t = true \/ abroad t = true) (w_log w)).
  { eapply Forall_impl; [|exact F]. intros t. apply expected_kinds. }
  eexists. split.
  { eapply moves_trans; [eapply moves_trans; [eapply moves_trans; [eapply ran_moves; exact RN|apply moves_put]|apply moves_put]|apply moves_put]. }
  intros k NK. cbv beta. rewrite !held_put_other by congruence. unfold held.
  rewrite (S7 (MetaA pool)), (S7 (Ext lm)), (S7 (AtaA Auth lm)), E3, E5, E6 by (destruct RN; congruence).
  rewrite B, Q. rewrite !net_split by exact F'.
  rewrite !(user_in_none (OMigrateV1 ok lp)), !(sent_none (OMigrateV1 ok lp)) by (assumption || reflexivity).
  unfold lost. simpl. replace (lm =? k) with false by lia. destruct (_ =? k), (_ =? k); lia.
Qed.

Lemma lp_op_accounted b pool meta lm source o w bx b2 m t p :
  binv b -> (exists k, o = OLockLp k) \/ (exists k, o = OClaimLp k) ->
  lp_accounts b pool meta lm source = Ok m -> load_pool b pool = Ok p -> load_tok b source = Ok t ->
  run_on b pool (pa_config p) (pa_bvault p) (pa_qvault p) (Some m) (snd t) o = Ok (w, bx) ->
  lp_store b pool meta lm source w = Ok b2 ->
  exists c v wa wa', ran b pool p c o v w wa wa' bx /\ moved wa o = w_log w
    /\ Forall (fun t => expected o t = true) (w_log w)
    /\ outflow TBase (w_log w) = 0 /\ outflow TQuote (w_log w) = 0
    /\ moves b b2 (fun k => if lm =? k then net TLp (w_log w) else 0).
Proof.
  intros I O A P T H L. apply load_pool_ok in P. destruct t as [[mt ot] nt]. apply load_tok_ok in T.
  unfold lp_accounts in A. bo A. bo A. destruct v0 as [[m0 vp] l0]. do 4 bo A. chk. apply load_meta_ok in E0.
  apply ok_or_ok in E1. apply Ok_inj in A. subst m0 vp l0 v0.
  destruct (is_ata_ok _ _ _ _ _ E4) as (-> & n & TS). rewrite TS in T. injection T as <- <- <-.
  destruct (meta_unique _ _ _ _ _ I E0) as (-> & MA).
  assert (LA : lp_at b pool = n) by (unfold lp_at; rewrite E0, TS; reflexivity).
  cbn [snd] in H.
  assert (PO : pool_op o = true) by (destruct O as [(? & ->)|(? & ->)]; reflexivity).
  destruct (run_on_ran _ _ _ _ _ _ _ _ _ _ _ I P PO eq_refl eq_refl eq_refl (eq_sym MA) (eq_sym LA) H)
    as (c & v5 & wa & wa' & RN).
  destruct (ran_vaults _ _ _ _ _ _ _ _ _ _ PO RN) as (F & MV & _ & _).
  exists c, v5, wa, wa'. split; [exact RN|]. split; [exact MV|]. split; [exact F|].
  assert (OF : forall k, is_lp_token k = false -> outflow k (w_log w) = 0).
  { intros k K. revert F. generalize (w_log w). induction 1 as [|t l X F IH]; [reflexivity|].
    unfold outflow in *. cbn [fold_right]. rewrite IH. destruct t as [tk tf tt ta].
    assert (tk = TLp) as ->.
    { destruct O as [(? & ->)|(? & ->)]; simpl in X; destruct tk; simpl in X; try reflexivity;
      rewrite andb_false_r in X; discriminate X. }
    simpl. destruct tf, tt; try reflexivity; destruct k; try reflexivity; discriminate K. }
  split; [apply OF; reflexivity|]. split; [apply OF; reflexivity|].
  assert (LP : w_lp w = n + net TLp (w_log w)).
  { pose proof (rn_exec _ _ _ _ _ _ _ _ _ _ RN) as X. pose proof (rn_view _ _ _ _ _ _ _ _ _ _ RN) as V.
    assert (LV : w_lp v5 = n) by (rewrite V; exact LA). assert (L0 : w_log v5 = []) by (rewrite V; reflexivity).
    clear V. destruct O as [(k & ->)|(k & ->)]; unfold exec in X; bo X; clear E; unfold lock_lp, claim_lp in X;
    do 2 bo X; bo X; destruct v7 as [m' x]; unfold pay_lp in X; bo X; apply Ok_inj in X; subst w;
    simpl; rewrite L0; simpl; unfold flow; simpl; lia. }
  unfold lp_store in L. apply bind_ok in L. destruct L as (m2 & EM & L). apply Ok_inj in L. subst b2.
  eapply moves_ext; [|eapply moves_trans; [apply moves_put|apply moves_put]].
  intros k. cbv beta. rewrite held_put_other by congruence. unfold held. rewrite E0, TS. simpl.
  destruct (lm =? k); lia.
Qed.

Lemma lock_lp_accounted b pool meta lm source k b' :
  binv b -> exec_lock_lp b pool meta lm source k = Ok b' -> accounted b pool (OLockLp k) b' (fun m => m <> lm).
Proof.
  intros I H. unfold exec_lock_lp in H. do 4 bo H. destruct v2 as [w bx]. cbn [fst] in H.
  destruct (lp_op_accounted b pool meta lm source (OLockLp k) w bx b' v v1 v0 I (or_introl (ex_intro _ k eq_refl)) E E0 E1 E2 H)
    as (c & v5 & wa & wa' & RN & MV & F & O1 & O2 & M).
  exists v0, c, v5, w, wa, wa', bx. split; [exact RN|]. split; [exact MV|]. split; [exact F|].
  eexists. split; [exact M|]. intros n N. cbv beta. unfold lost. rewrite O1, O2.
  replace (lm =? n) with false by lia. destruct (_ =? n), (_ =? n); reflexivity.
Qed.
Lemma claim_lp_accounted b pool meta lm source dst k b' :
  binv b -> exec_claim_lp b pool meta lm source dst k = Ok b' -> accounted b pool (OClaimLp k) b' any.
Proof.
  intros I H. unfold exec_claim_lp in H. do 5 bo H. destruct v3 as [w bx]. cbn [fst] in H. bo H.
  destruct (lp_op_accounted b pool meta lm source (OClaimLp k) w bx v3 v v2 v1 I (or_intror (ex_intro _ k eq_refl)) E E1 E2 E3 E4)
    as (c & v5 & wa & wa' & RN & MV & F & O1 & O2 & M).
  exists v1, c, v5, w, wa, wa', bx. split; [exact RN|]. split; [exact MV|]. split; [exact F|].
  eexists. split; [eapply moves_trans; [exact M|eapply moves_deliver; exact H]|]. intros n _. cbv beta.
  rewrite paid_in_mints. unfold lost. rewrite O1, O2.
  assert (SB : sent TBase (w_log w) = 0) by none. assert (SQ : sent TQuote (w_log w) = 0) by none.
  assert (F' : Forall (fun t => leaves t = true \/ from_user t = true \/ abroad t = true) (w_log w)).
  { eapply Forall_impl; [|exact F]. intros t. apply expected_kinds. }
  rewrite net_split, SB, SQ by exact F'.
  rewrite (user_in_none (OClaimLp k)), (outflow_none (OClaimLp k)) by (assumption || reflexivity).
  repeat match goal with |- context [if ?x =? n then _ else _] => destruct (x =? n) end; lia.
Qed.

(** The LP mint is created by the DAMM v1 migration and leaves the pool when locked. *)
Definition known_mint (i : instr) (m : Z) : Prop :=
  match i with
  | IMigrateV1 _ _ _ _ _ lm _ _ | ILockLp _ _ lm _ _ => m <> lm
  | _ => True
  end.

Lemma ix_accounted b i b' a o : binv b -> typed i -> ix b i = Ok b' -> runs b i = Some (a, o) ->
  accounted b a o b' (known_mint i).
Proof.
  intros I T H R.
  assert (K : forall x, accounted b a o b' x -> (forall m, known_mint i m -> x m) -> accounted b a o b' (known_mint i)).
  { intros x (p & c & v & w & wa & wa' & b1 & A1 & A2 & A3 & d & A4 & A5) X.
    exists p, c, v, w, wa, wa', b1. do 3 (split; [assumption|]). exists d. split; [exact A4|]. intros m M. apply A5, X, M. }
  assert (K0 : accounted b a o b' any -> accounted b a o b' (known_mint i)).
  { intros X. eapply K; [exact X|]. intros; exact Logic.I. }
  destruct i; simpl in H; try discriminate R.
  - destruct (swap_accounted _ _ _ _ _ _ _ _ _ _ _ _ _ _ _ _ _ _ I H) as (o' & R' & D).
    rewrite R in R'. injection R' as -> ->. auto.
  - injection R as <- <-. apply K0. eapply claim_partner_accounted; eauto.
  - injection R as <- <-. apply K0. eapply claim_creator_accounted; eauto.
  - injection R as <- <-. apply K0. eapply claim_protocol_accounted; eauto.
  - destruct (zap_accounted _ _ _ _ _ _ _ _ _ _ _ _ I H) as (o' & R' & D).
    rewrite R in R'. injection R' as -> ->. auto.
  - injection R as <- <-. apply K0. eapply quote_payout_accounted; eauto.
    intros t. simpl. destruct (t_token t); simpl; rewrite ?andb_false_r; congruence.
  - injection R as <- <-. apply K0. eapply quote_payout_accounted; eauto.
    intros t. simpl. destruct (t_token t); simpl; rewrite ?andb_false_r; congruence.
  - injection R as <- <-. apply K0. eapply quote_payout_accounted; eauto.
    intros t. simpl. destruct (t_token t); simpl; rewrite ?andb_false_r; congruence.
  - injection R as <- <-. apply K0. eapply leftover_accounted; eauto.
  - injection R as <- <-. apply K0. eapply partner_creation_accounted; eauto.
  - injection R as <- <-. apply K0. eapply protocol_creation_accounted; eauto.
  - injection R as <- <-. apply K0. eapply transfer_creator_accounted; eauto.
  - injection R as <- <-. apply K0. eapply locker_accounted; eauto.
  - injection R as <- <-. apply K0. eapply metadata_accounted; eauto.
  - injection R as <- <-. eapply K; [eapply migrate_v1_accounted; eauto|]. auto.
  - injection R as <- <-. apply K0. eapply migrate_v2_accounted; eauto.
  - injection R as <- <-. eapply K; [eapply lock_lp_accounted; eauto|]. auto.
  - injection R as <- <-. apply K0. eapply claim_lp_accounted; eauto.
Qed.
