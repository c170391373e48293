(** * What partner and creator get in the end is decided by the trades: C97. *)
From Coq Require Import ZArith QArith List Bool Lia ZifyBool PeanoNat.
From Verif Require Import Base MathModel CurveModel FeeModel ConfigModel PoolModel TxModel
  SystemModel Spec SpecHist Lib CurveProofs CurveLoops Potential CalcProofs ConfigProofs FeeProofs
  SwapProofs InvProofs InvOps InvReach Effects Frame Bounds Only PropSwap PropSafe PropFees PropPay
  PropIndep PropLife PropShare Fixtures FixturesReach.
Import ListNotations.
Open Scope Z_scope.
#[local] Arguments Z.pow : simpl never.
#[local] Arguments Z.testbit : simpl never.
#[local] Arguments unless : simpl never.

(** ** Specification *)

(** The instructions by which the partner is paid: trading fees, surplus, migration fee (flag 0), creation fee. *)
Definition partner_op (o : op) : bool :=
  match o with
  | OClaimPartner _ _ _ _ | OPartnerSurplus _ _ | OPartnerCreationFee _ _ => true
  | OMigrationFee _ _ f => f =? 0
  | _ => false
  end.
(** Those by which the creator is paid: trading fees, surplus, migration fee (flag 1). *)
Definition creator_op (o : op) : bool :=
  match o with
  | OClaimCreator _ _ _ _ | OCreatorSurplus _ _ => true
  | OMigrationFee _ _ f => negb (f =? 0)
  | _ => false
  end.

(** What they have been paid in a history. *)
Definition partner_received (t : token) (w0 : world) (ops : list op) : Z := total (paid_by partner_op t) w0 ops.
Definition creator_received (t : token) (w0 : world) (ops : list op) : Z := total (paid_by creator_op t) w0 ops.

Definition complete (w : world) : bool := c_threshold (w_config w) <=? p_quote (w_pool w).

(** What is there for them and they have not taken yet. Surplus and migration fee exist once the curve is complete. *)
Definition partner_waiting (t : token) (w : world) : Z :=
  let c := w_config w in let p := w_pool w in
  match t with
  | TBase => p_partner_base p
  | TQuote => p_partner_quote p
      + (if complete w
         then unless (p_partner_surplus p =? 1) (surplus_partner c (p_quote p))
              + unless (Z.testbit (p_mig_fee_status p) 2) (migration_fee_partner c)
         else 0)
  | TSol => unless (Z.testbit (p_creation_bits p) 1) (c_pool_creation_fee c - c_pool_creation_fee c * 10 / 100)
  | TLp => 0
  end.
Definition creator_waiting (t : token) (w : world) : Z :=
  let c := w_config w in let p := w_pool w in
  match t with
  | TBase => p_creator_base p
  | TQuote => p_creator_quote p
      + (if complete w
         then unless (p_creator_surplus p =? 1) (surplus_creator c (p_quote p))
              + unless (Z.testbit (p_mig_fee_status p) 1) (migration_fee_creator c)
         else 0)
  | _ => 0
  end.

(** What they have earned: their shares of the fees of all trades; of surplus and migration fee, once the curve is
    complete; and, for the partner, the creation fee without the protocol's tenth. *)
Definition partner_earned (t : token) (w0 : world) (ops : list op) : Z :=
  let w := run w0 ops in let c := w_config w in
  match t with
  | TBase => total (partner_share TBase) w0 ops
  | TQuote => total (partner_share TQuote) w0 ops
      + (if complete w then surplus_partner c (p_quote (w_pool w)) + migration_fee_partner c else 0)
  | TSol => c_pool_creation_fee c - c_pool_creation_fee c * 10 / 100
  | TLp => 0
  end.
Definition creator_earned (t : token) (w0 : world) (ops : list op) : Z :=
  let w := run w0 ops in let c := w_config w in
  match t with
  | TBase => total (creator_share TBase) w0 ops
  | TQuote => total (creator_share TQuote) w0 ops
      + (if complete w then surplus_creator c (p_quote (w_pool w)) + migration_fee_creator c else 0)
  | _ => 0
  end.

(** ** Received and waiting make up what was earned *)
Lemma paid_fail t w o e : exec w o = Err e -> paid t w o = 0.
Proof. intros H. unfold paid, moved. rewrite (step_err _ _ _ H), skipn_all. reflexivity. Qed.

Lemma total_add f g h : (forall w o, Inv w -> f w o = g w o + h w o) ->
  forall ops w, Inv w -> total f w ops = total g w ops + total h w ops.
Proof.
  intros E ops. induction ops as [|o r IH]; intros w I; simpl; auto.
  rewrite (E w o I), (IH _ (inv_step _ _ I)). lia.
Qed.
Lemma total_ext f g : (forall w o, Inv w -> f w o = g w o) ->
  forall ops w, Inv w -> total f w ops = total g w ops.
Proof.
  intros E ops. induction ops as [|o r IH]; intros w I; simpl; auto.
  rewrite (E w o I), (IH _ (inv_step _ _ I)). lia.
Qed.

(** The payments of each instruction, token by token. *)
Lemma partner_parts t w o : Inv w ->
  paid_by partner_op t w o
  = match t with
    | TBase => partner_claims TBase w o
    | TQuote => partner_claims TQuote w o
        + (paid_by partner_surplus_op TQuote w o + paid_by partner_migration_fee_op TQuote w o)
    | TSol => paid_by partner_creation_fee_op TSol w o
    | TLp => 0
    end.
Proof.
  intros I. unfold paid_by, partner_claims.
  destruct (partner_op o) eqn:P.
  2:{ destruct o; try discriminate P; simpl; destruct t; auto; simpl in P; rewrite P; lia. }
  destruct (exec w o) as [w'|e] eqn:H.
  2:{ rewrite !(paid_fail _ _ _ _ H). destruct o; simpl in *; destruct t; rewrite ?P; auto. }
  pose proof H as H0. pose proof (exec_args _ _ _ H) as A. unfold exec in H. rewrite A in H. cbn [require bind] in H.
  destruct o; try discriminate P; simpl partner_surplus_op; simpl partner_migration_fee_op;
    simpl partner_creation_fee_op; cbv iota.
  - apply partner_eff in H. destruct H as (_ & E & _). unfold paid. rewrite (moved_eff _ _ _ _ _ H0 E).
    destruct t; simpl; unfold flow; simpl; lia.
  - apply partner_surplus_eff in H; auto. destruct H as (_ & _ & _ & E & _). unfold paid. rewrite (moved_eff _ _ _ _ _ H0 E).
    destruct t; simpl; unfold flow; simpl; lia.
  - simpl in P. rewrite P. apply migration_fee_eff in H; auto.
    destruct H as (_ & _ & [(_ & _ & _ & E)|(-> & _)]); [|discriminate P].
    unfold paid. rewrite (moved_eff _ _ _ _ _ H0 E). destruct t; simpl; unfold flow; simpl; lia.
  - apply partner_cf_eff in H; auto. destruct H as (_ & _ & _ & E & _). unfold paid. rewrite (moved_eff _ _ _ _ _ H0 E).
    destruct t; simpl; unfold flow; simpl; lia.
Qed.
Lemma creator_parts t w o : Inv w ->
  paid_by creator_op t w o
  = match t with
    | TBase => creator_claims TBase w o
    | TQuote => creator_claims TQuote w o
        + (paid_by creator_surplus_op TQuote w o + paid_by creator_migration_fee_op TQuote w o)
    | _ => 0
    end.
Proof.
  intros I. unfold paid_by, creator_claims.
  destruct (creator_op o) eqn:P.
  2:{ destruct o; try discriminate P; simpl; destruct t; auto; simpl in P; rewrite P; lia. }
  destruct (exec w o) as [w'|e] eqn:H.
  2:{ rewrite !(paid_fail _ _ _ _ H). destruct o; simpl in *; destruct t; rewrite ?P; auto. }
  pose proof H as H0. pose proof (exec_args _ _ _ H) as A. unfold exec in H. rewrite A in H. cbn [require bind] in H.
  destruct o; try discriminate P; simpl creator_surplus_op; simpl creator_migration_fee_op; cbv iota.
  - apply creator_eff in H. destruct H as (_ & E & _). unfold paid. rewrite (moved_eff _ _ _ _ _ H0 E).
    destruct t; simpl; unfold flow; simpl; lia.
  - apply creator_surplus_eff in H; auto. destruct H as (_ & _ & _ & E & _). unfold paid. rewrite (moved_eff _ _ _ _ _ H0 E).
    destruct t; simpl; unfold flow; simpl; lia.
  - simpl in P. rewrite P. apply migration_fee_eff in H; auto.
    destruct H as (_ & _ & [(-> & _)|(-> & _ & _ & E)]); [discriminate P|].
    unfold paid. rewrite (moved_eff _ _ _ _ _ H0 E). destruct t; simpl; unfold flow; simpl; lia.
Qed.

(** Before the curve is complete none of the one-time shares has been paid. *)
Lemma open_flags w : Inv w -> complete w = false ->
  psur_done w = false /\ csur_done w = false /\ pmf_done w = false /\ cmf_done w = false.
Proof.
  intros I C. unfold complete in C.
  assert (P : p_progress (w_pool w) = 0) by (apply (iv_complete _ I); lia).
  destruct (iv_open _ I P) as (X1 & X2 & X3 & X4). unfold psur_done, csur_done, pmf_done, cmf_done.
  rewrite X1, X2, X4. auto.
Qed.

(** Something paid at most once: what was paid and what is not paid yet are the whole amount. *)
Lemma once_sum kind t done amt
  (does : forall w o w', Inv w -> exec w o = Ok w' -> kind o = true ->
    done w = false /\ done w' = true /\ paid t w o = amt w')
  (keeps : forall w o w', Inv w -> exec w o = Ok w' -> kind o = false ->
    done w' = done w /\ (done w = true -> amt w' = amt w)) ops w :
  Inv w -> done w = false ->
  total (paid_by kind t) w ops + unless (done (run w ops)) (amt (run w ops)) = amt (run w ops)
  /\ (done (run w ops) = false -> total (paid_by kind t) w ops = 0).
Proof.
  intros I D. destruct (once kind t done amt does keeps ops w I D) as [(_ & A & B)|(_ & B & A)];
  rewrite A, B; unfold unless; split; auto; try lia; try discriminate.
Qed.

(** ** C97: what was earned is what was received and what is waiting *)
Theorem C97_received_or_waiting : forall w0 ops t, initial w0 ->
  partner_received t w0 ops + partner_waiting t (run w0 ops) = partner_earned t w0 ops
  /\ creator_received t w0 ops + creator_waiting t (run w0 ops) = creator_earned t w0 ops.
Proof.
  intros w0 ops t H. pose proof (initial_inv _ H) as I.
  assert (IE : Inv (run w0 ops)) by (apply inv_run; auto).
  destruct (initial_flags _ H) as (F1 & F2 & F3 & _ & F5 & _).
  assert (S1 : psur_done w0 = false) by (unfold psur_done; rewrite F1; reflexivity).
  assert (S2 : csur_done w0 = false) by (unfold csur_done; rewrite F2; reflexivity).
  assert (S3 : pmf_done w0 = false) by (unfold pmf_done; rewrite F3; reflexivity).
  assert (S4 : cmf_done w0 = false) by (unfold cmf_done; rewrite F3; reflexivity).
  assert (S5 : pcf_done w0 = false) by (unfold pcf_done; rewrite F5; reflexivity).
  destruct (once_sum _ _ _ _ psur_does psur_keeps ops w0 I S1) as (P1 & Z1).
  destruct (once_sum _ _ _ _ csur_does csur_keeps ops w0 I S2) as (P2 & Z2).
  destruct (once_sum _ _ _ _ pmf_does pmf_keeps ops w0 I S3) as (P3 & Z3).
  destruct (once_sum _ _ _ _ cmf_does cmf_keeps ops w0 I S4) as (P4 & Z4).
  assert (P5 : total (paid_by partner_creation_fee_op TSol) w0 ops
               + unless (pcf_done (run w0 ops)) (pcf_amt (run w0 ops)) = pcf_amt (run w0 ops)).
  { refine (proj1 (once_sum _ _ pcf_done pcf_amt _ _ ops w0 I S5)).
    - intros w1 o w2 I1 X K. destruct (pcf_does _ _ _ I1 X K) as (A & B & C & _). auto.
    - intros w1 o w2 I1 X K. destruct (creation_keeps _ _ _ I1 X) as (A & _ & C).
      unfold pcf_amt. rewrite C. auto. }
  destruct (C18_unclaimed_plus_claimed w0 ops TBase H (or_introl eq_refl)) as (FB1 & FB2 & _).
  destruct (C18_unclaimed_plus_claimed w0 ops TQuote H (or_intror eq_refl)) as (FQ1 & FQ2 & _).
  cbv zeta in FB1, FB2, FQ1, FQ2. cbn [partner_fees creator_fees] in FB1, FB2, FQ1, FQ2.
  unfold partner_received, creator_received.
  rewrite (total_ext _ _ (fun w o => partner_parts t w o) ops w0 I), (total_ext _ _ (fun w o => creator_parts t w o) ops w0 I).
  assert (T0 : forall l w, total (fun _ _ => 0) w l = 0)
    by (intros l; induction l as [|o r IH]; intros w; simpl; [auto|rewrite IH; auto]).
  assert (OF := open_flags _ IE).
  destruct t; unfold partner_waiting, creator_waiting, partner_earned, creator_earned.
  - split; [etransitivity; [|exact FB1]|etransitivity; [|exact FB2]]; apply Z.add_comm.
  - rewrite (total_add _ _ _ (fun w o _ => eq_refl) ops w0 I).
    rewrite (total_add (fun w o => creator_claims TQuote w o + _) _ _ (fun w o _ => eq_refl) ops w0 I).
    rewrite (total_add (fun w o => paid_by partner_surplus_op TQuote w o + _) _ _ (fun w o _ => eq_refl) ops w0 I).
    rewrite (total_add (fun w o => paid_by creator_surplus_op TQuote w o + _) _ _ (fun w o _ => eq_refl) ops w0 I).
    change (total (fun w o => ?f w o)) with (total f).
    unfold psur_done, csur_done, pmf_done, cmf_done, psur_amt, csur_amt, pmf_amt, cmf_amt in *.
    destruct (complete (run w0 ops)).
    + clear - P1 P2 P3 P4 FQ1 FQ2. lia.
    + destruct (OF eq_refl) as (O1 & O2 & O3 & O4). rewrite (Z1 O1), (Z2 O2), (Z3 O3), (Z4 O4).
      clear - FQ1 FQ2. lia.
  - rewrite T0. split; [exact P5|reflexivity].
  - rewrite T0. split; reflexivity.
Qed.

(** ** Sums over trades are the same for the same trades *)

(** Something that is nothing but for successful swaps, and equal for equal receipts under equal terms. *)
Definition of_trade (f : world -> op -> Z) : Prop :=
  (forall w o, receipt w o = None -> f w o = 0)
  /\ (forall w v o, w_config v = w_config w -> receipt w o = receipt v o -> f w o = f v o).

Lemma no_receipt w o : is_swap_op o = false -> receipt w o = None.
Proof. destruct o; try discriminate; reflexivity. Qed.
Lemma fail_receipt w o e : exec w o = Err e -> receipt w o = None.
Proof. intros H. unfold receipt. destruct o; auto. rewrite H. reflexivity. Qed.

Lemma receipt_twin w v a w' v' : agrees w v -> exec w (OSwap a) = Ok w' -> exec v (OSwap a) = Ok v' ->
  receipt w (OSwap a) = receipt v (OSwap a).
Proof.
  intros A H K.
  destruct (receipt_swap _ _ _ H) as (r & S & ->). destruct (receipt_swap _ _ _ K) as (s & T & ->).
  assert (PC : paced (calmer w v) w v) by (split; auto).
  pose proof (swap_follow _ _ _ a PC _ S) as F. rewrite T in F. simpl in F. destruct F as (-> & _). reflexivity.
Qed.

Lemma no_trades_total f ops : of_trade f -> forall v, trades v ops = [] -> total f v ops = 0.
Proof.
  intros (Z0 & _). induction ops as [|o r IH]; intros v T; [reflexivity|]. cbn [total].
  destruct (is_swap_op o) eqn:S.
  - destruct o; try discriminate S. destruct (exec v (OSwap a)) as [v'|e] eqn:E.
    + rewrite (trades_ok _ _ _ _ E) in T. discriminate T.
    + rewrite (trades_fail _ _ _ _ E) in T. rewrite (Z0 _ _ (fail_receipt _ _ _ E)), (step_err _ _ _ E).
      rewrite (IH _ T). reflexivity.
  - rewrite (trades_other _ _ _ S) in T. rewrite (Z0 _ _ (no_receipt _ _ S)), (IH _ T). reflexivity.
Qed.

Lemma first_trade_total f ops : of_trade f -> forall v, Inv v -> forall a l t, trades v ops = (a, l) :: t ->
  exists u u' rest, Inv u /\ agrees v u /\ exec u (OSwap a) = Ok u' /\ t = trades u' rest
    /\ total f v ops = f u (OSwap a) + total f u' rest.
Proof.
  intros (Z0 & Z1). induction ops as [|o r IH]; intros v I a l t T; [discriminate T|].
  assert (J : Inv (step v o)) by (apply inv_step; auto). cbn [total].
  destruct (is_swap_op o) eqn:S.
  - destruct o as [b| | | | | | | | | | | | | | | | | | | | | | | |]; try discriminate S.
    destruct (exec v (OSwap b)) as [v'|e] eqn:E.
    + rewrite (trades_ok _ _ _ _ E) in T. injection T; intros. subst.
      exists v, v', r. rewrite (step_ok _ _ _ E). auto 10 using agrees_refl.
    + rewrite (trades_fail _ _ _ _ E) in T. rewrite (Z0 _ _ (fail_receipt _ _ _ E)), (step_err _ _ _ E).
      destruct (IH _ I _ _ _ T) as (u & u' & rest & X1 & X2 & X3 & X4 & X5).
      exists u, u', rest. rewrite X5. auto 10.
  - rewrite (trades_other _ _ _ S) in T. destruct (IH _ J _ _ _ T) as (u & u' & rest & X1 & X2 & X3 & X4 & X5).
    exists u, u', rest. rewrite (Z0 _ _ (no_receipt _ _ S)), X5. split; auto. split; auto.
    apply (agrees_trans _ (step v o)); [apply step_agrees; auto|auto].
Qed.

Lemma twin_totals f ops1 : of_trade f -> forall w v ops2, Inv w -> Inv v -> agrees w v ->
  map fst (trades w ops1) = map fst (trades v ops2) -> total f w ops1 = total f v ops2.
Proof.
  intros F. pose proof F as (Z0 & Z1). induction ops1 as [|o r IH]; intros w v ops2 I J A T.
  - simpl in T. destruct (trades v ops2) eqn:E; [|discriminate T].
    rewrite (no_trades_total f ops2 F v E). reflexivity.
  - assert (I' : Inv (step w o)) by (apply inv_step; auto). cbn [total].
    destruct (is_swap_op o) eqn:S.
    + destruct o as [b| | | | | | | | | | | | | | | | | | | | | | | |]; try discriminate S.
      destruct (exec w (OSwap b)) as [w'|e] eqn:E.
      * rewrite (trades_ok _ _ _ _ E) in T. rewrite (step_ok _ _ _ E) in *. simpl in T.
        destruct (trades v ops2) as [|[b' l] t] eqn:V; [discriminate T|]. simpl in T.
        injection T as EB ET. subst b'.
        destruct (first_trade_total f _ F _ J _ _ _ V) as (u & u' & rest & IU & AU & EU & -> & ->).
        pose proof (agrees_trans _ _ _ A AU) as AW.
        destruct (swap_twin w u b w' u' I IU AW E EU) as (_ & AG & _).
        assert (JU : Inv u') by (eapply inv_exec; eauto).
        rewrite (IH _ _ rest I' JU AG ET), (Z1 w u _ (ag_config _ _ AW) (receipt_twin _ _ _ _ _ AW E EU)).
        reflexivity.
      * rewrite (trades_fail _ _ _ _ E) in T. rewrite (Z0 _ _ (fail_receipt _ _ _ E)), (step_err _ _ _ E).
        rewrite (IH _ _ ops2 I J A T). reflexivity.
    + rewrite (trades_other _ _ _ S) in T. rewrite (Z0 _ _ (no_receipt _ _ S)).
      rewrite (IH _ v ops2 I' J); auto.
      apply (agrees_trans _ w); [apply agrees_sym, step_agrees; auto|exact A].
Qed.

Lemma trade_trading t : of_trade (trading_fee t).
Proof. split; unfold trading_fee; [intros w o ->; reflexivity|intros w v o -> ->; reflexivity]. Qed.
Lemma trade_protocol t : of_trade (protocol_fee t).
Proof. split; unfold protocol_fee; [intros w o ->; reflexivity|intros w v o -> ->; reflexivity]. Qed.
Lemma trade_creator t : of_trade (creator_share t).
Proof.
  destruct (trade_trading t) as (A & B). split; unfold creator_share.
  - intros w o H. rewrite (A _ _ H). reflexivity.
  - intros w v o C R. rewrite (B _ _ _ C R), C. reflexivity.
Qed.
Lemma trade_partner t : of_trade (partner_share t).
Proof.
  destruct (trade_trading t) as (A & B), (trade_creator t) as (A' & B'). split; unfold partner_share.
  - intros w o H. rewrite (A _ _ H), (A' _ _ H). reflexivity.
  - intros w v o C R. rewrite (B _ _ _ C R), (B' _ _ _ C R). reflexivity.
Qed.

(** Two histories of a pool with the same successful swaps, whatever else happens in them, in whatever order: partner
    and creator have earned the same, so what they have received and what is waiting for them add up to the same; and
    the swaps have brought the protocol the same. *)
Theorem C97_only_trades_matter : forall w0 ops1 ops2 t, initial w0 ->
  map fst (trades w0 ops1) = map fst (trades w0 ops2) ->
  partner_received t w0 ops1 + partner_waiting t (run w0 ops1)
    = partner_received t w0 ops2 + partner_waiting t (run w0 ops2)
  /\ creator_received t w0 ops1 + creator_waiting t (run w0 ops1)
    = creator_received t w0 ops2 + creator_waiting t (run w0 ops2)
  /\ total (protocol_fee t) w0 ops1 = total (protocol_fee t) w0 ops2.
Proof.
  intros w0 ops1 ops2 t H T. pose proof (initial_inv _ H) as I.
  destruct (C97_received_or_waiting w0 ops1 t H) as (-> & ->).
  destruct (C97_received_or_waiting w0 ops2 t H) as (-> & ->).
  destruct (twins ops1 w0 w0 ops2 I I (agrees_refl w0) T) as (_ & A).
  assert (E : forall f, of_trade f -> total f w0 ops1 = total f w0 ops2)
    by (intros f F; apply (twin_totals f ops1 F w0 w0 ops2 I I (agrees_refl w0) T)).
  split; [|split].
  - unfold partner_earned, complete. rewrite (ag_config _ _ A), (al_quote _ _ (ag_pool _ _ A)).
    destruct t; rewrite ?(E _ (trade_partner _)); reflexivity.
  - unfold creator_earned, complete. rewrite (ag_config _ _ A), (al_quote _ _ (ag_pool _ _ A)).
    destruct t; rewrite ?(E _ (trade_creator _)); reflexivity.
  - apply (E _ (trade_protocol t)).
Qed.

(** So a party that has taken everything has got the same, whenever, in how many parts and by however many claims. *)
Theorem C97_claiming_often_gains_nothing : forall w0 ops1 ops2 t, initial w0 ->
  map fst (trades w0 ops1) = map fst (trades w0 ops2) ->
  (partner_waiting t (run w0 ops1) = 0 -> partner_waiting t (run w0 ops2) = 0 ->
     partner_received t w0 ops1 = partner_received t w0 ops2)
  /\ (creator_waiting t (run w0 ops1) = 0 -> creator_waiting t (run w0 ops2) = 0 ->
     creator_received t w0 ops1 = creator_received t w0 ops2).
Proof.
  intros w0 ops1 ops2 t H T. destruct (C97_only_trades_matter w0 ops1 ops2 t H T) as (A & B & _). lia.
Qed.

(** Nothing that is not a trade costs them anything: insert claims by anyone, transfers of the creator's role, the
    migration and failing instructions into a history of swaps, and what they have received and what is waiting add
    up to what they have earned by the swaps alone. *)
Theorem C97_nothing_else_costs : forall w0 swaps ops t, initial w0 ->
  map fst (trades w0 (map OSwap swaps)) = swaps ->
  filter is_swap_op ops = map OSwap swaps ->
  forallb (fun o => negb (is_gift o)) ops = true ->
  partner_received t w0 ops + partner_waiting t (run w0 ops) = partner_waiting t (run w0 (map OSwap swaps))
  /\ creator_received t w0 ops + creator_waiting t (run w0 ops) = creator_waiting t (run w0 (map OSwap swaps)).
Proof.
  intros w0 swaps ops t H T F G.
  destruct (C71_nothing_gets_in_the_way w0 swaps ops (ex_intro _ w0 (ex_intro _ [] (conj H eq_refl))) T F G) as (E & _).
  destruct (C97_only_trades_matter w0 ops (map OSwap swaps) t H (f_equal (map fst) E)) as (A & B & _).
  assert (Z0 : forall k w, (forall a, k (OSwap a) = false) -> total (paid_by k t) w (map OSwap swaps) = 0).
  { clear. intros k. induction swaps as [|a r IH]; intros w K; cbn [map total]; auto.
    rewrite IH; auto. unfold paid_by. rewrite K. reflexivity. }
  unfold partner_received, creator_received in *.
  rewrite (Z0 partner_op w0) in A by reflexivity. rewrite (Z0 creator_op w0) in B by reflexivity. lia.
Qed.

(** ** The protocol's quote tokens *)

(** Its fees and its cut of the migrated quote, and the surplus once the curve is complete. *)
Definition protocol_waiting (w : world) : Z :=
  p_protocol_quote (w_pool w) + p_mig_quote_fee (w_pool w)
  + (if complete w then unless (p_protocol_surplus (w_pool w) =? 1) (surplus_protocol (w_config w) (p_quote (w_pool w)))
     else 0).

Lemma migration_bool o : migrate_op o = true -> is_migration o.
Proof. destruct o; try discriminate; intros _; unfold is_migration; eauto. Qed.

Lemma total_cut ops : forall w, reachable w ->
  total (cut TQuote) w ops
  = if p_progress (w_pool w) =? 3 then 0
    else if p_progress (w_pool (run w ops)) =? 3 then aside_quote (w_config w) * 20 / 10000 else 0.
Proof.
  induction ops as [|o r IH]; intros w R.
  - simpl. destruct (_ =? 3); reflexivity.
  - cbn [total]. change (run w (o :: r)) with (run (step w o) r).
    assert (R' : reachable (step w o)) by (change (step w o) with (run w [o]); apply reachable_run; auto).
    rewrite (IH _ R'). unfold cut. destruct (exec w o) as [w'|e] eqn:E; cbn [is_ok].
    + rewrite (step_ok _ _ _ E) in *. pose proof (reachable_inv _ R) as I.
      destruct (exec_frame _ _ _ I E) as (F & _). rewrite (fr_config _ _ F).
      pose proof (C24_legal_edges _ _ _ R E) as L. cbv zeta in L.
      destruct (migrate_op o) eqn:M.
      * destruct (C76_protocol_share _ _ _ R (migration_bool _ M) E) as (Q & _).
        assert (P : p_progress (w_pool w) = 2 /\ p_progress (w_pool w') = 3).
        { pose proof (exec_args _ _ _ E) as A. unfold exec in E. rewrite A in E. cbn [require bind] in E.
          destruct o; try discriminate M.
          - apply migrate_v1_eff in E. destruct E as (m & m' & fb & fq & eb & eq & b & mb & _ & P & _ & _ & _ & E & _).
            rewrite (ef_pool _ _ _ _ E). auto.
          - apply migrate_v2_eff in E.
            destruct E as (fb & fq & eb & eq & l2 & b & mb & h & _ & P & _ & _ & _ & _ & _ & E & _).
            rewrite (ef_pool _ _ _ _ E). auto. }
        destruct P as (P2 & P3). pose proof (C24_progress_monotone w' r R') as (_ & U).
        pose proof (proj1 (C24_progress_monotone w' r R')) as V. destruct U as (U & _).
        replace (p_progress (w_pool w) =? 3) with false by lia. replace (p_progress (w_pool w') =? 3) with true by lia.
        replace (p_progress (w_pool (run w' r)) =? 3) with true by lia.
        rewrite Z.add_0_r. unfold cut_at_migration. rewrite (step_ok _ _ _ E).
        destruct o; try discriminate M; exact Q.
      * assert (Z0 : cut_at_migration TQuote w o = 0) by (destruct o; try discriminate M; reflexivity).
        rewrite Z0. assert (P : (p_progress (w_pool w') =? 3) = (p_progress (w_pool w) =? 3)).
        { destruct L as [-> |[(L1 & _ & _ & _ & [(_ & L2)|(_ & L2)])|[(L1 & L2 & _)|(L1 & L2 & L3)]]]; try lia.
          exfalso. destruct L3 as [(_ & ok & lp & ->)|(_ & x & now & ->)]; discriminate M. }
        rewrite P. reflexivity.
    + rewrite (step_err _ _ _ E). reflexivity.
Qed.

(** The protocol's quote: what it has been paid and what waits for it are its fees from the trades, its share of the
    surplus once the curve is complete and, once the pool has migrated, its fifth of a percent of the quote set aside. *)
Theorem C97_protocol_quote : forall w0 ops, initial w0 ->
  let w := run w0 ops in
  total (protocol_claims TQuote) w0 ops + protocol_waiting w
  = total (protocol_fee TQuote) w0 ops
    + (if complete w then surplus_protocol (w_config w) (p_quote (w_pool w)) else 0)
    + (if p_progress (w_pool w) =? 3 then aside_quote (w_config w) * 20 / 10000 else 0).
Proof.
  intros w0 ops H w. pose proof (initial_inv _ H) as I.
  assert (IE : Inv w) by (apply inv_run; auto).
  destruct (C18_unclaimed_plus_claimed w0 ops TQuote H (or_intror eq_refl)) as (_ & _ & P). fold w in P.
  rewrite (total_cut ops w0 (ex_intro _ w0 (ex_intro _ [] (conj H eq_refl)))) in P.
  destruct (initial_flags _ H) as (_ & _ & _ & _ & _ & _ & _ & F). rewrite F in P. cbn [Z.eqb] in P. fold w in P.
  rewrite <- (fr_config _ _ (run_frame ops w0 I)) in P. fold w in P.
  cbn [protocol_fees migration_cut protocol_surplus_paid] in P. unfold protocol_waiting.
  destruct (complete w) eqn:C.
  - unfold unless. destruct (p_protocol_surplus (w_pool w) =? 1); lia.
  - unfold complete in C. assert (P0 : p_progress (w_pool w) = 0) by (apply (iv_complete _ IE); lia).
    destruct (iv_open _ IE P0) as (_ & _ & X & _). rewrite X in P. cbn [Z.eqb] in P. lia.
Qed.

(** So it too depends only on the trades, and on whether the pool has migrated. *)
Theorem C97_protocol_too : forall w0 ops1 ops2, initial w0 ->
  map fst (trades w0 ops1) = map fst (trades w0 ops2) ->
  (p_progress (w_pool (run w0 ops1)) = 3 <-> p_progress (w_pool (run w0 ops2)) = 3) ->
  total (protocol_claims TQuote) w0 ops1 + protocol_waiting (run w0 ops1)
  = total (protocol_claims TQuote) w0 ops2 + protocol_waiting (run w0 ops2).
Proof.
  intros w0 ops1 ops2 H T M. pose proof (initial_inv _ H) as I.
  rewrite (C97_protocol_quote w0 ops1 H), (C97_protocol_quote w0 ops2 H).
  destruct (C97_only_trades_matter w0 ops1 ops2 TQuote H T) as (_ & _ & ->).
  destruct (twins ops1 w0 w0 ops2 I I (agrees_refl w0) T) as (_ & A).
  unfold complete. rewrite (ag_config _ _ A), (al_quote _ _ (ag_pool _ _ A)).
  replace (p_progress (w_pool (run w0 ops1)) =? 3) with (p_progress (w_pool (run w0 ops2)) =? 3) by lia.
  reflexivity.
Qed.

(** The busy history of C71 (claims, a new creator, a migration fee) against its swaps alone: partner and creator have
    received something, not everything, and nothing is lost. *)
Example C97_case :
  map fst (trades wA c71_busy) = map fst (trades wA (map OSwap c71_swaps))
  /\ 0 < partner_received TQuote wA c71_busy /\ 0 < partner_waiting TQuote (run wA c71_busy)
  /\ partner_received TQuote wA c71_busy + partner_waiting TQuote (run wA c71_busy)
     = partner_waiting TQuote (run wA (map OSwap c71_swaps))
  /\ 0 < creator_received TQuote wA c71_busy /\ 0 < creator_waiting TQuote (run wA c71_busy)
  /\ creator_received TQuote wA c71_busy + creator_waiting TQuote (run wA c71_busy)
     = creator_waiting TQuote (run wA (map OSwap c71_swaps))
  /\ 0 < total (protocol_fee TQuote) wA c71_busy.
Proof. vm_compute. repeat split. Qed.
(** Everything taken at the end, at once, or in parts after some of the trades: the same. *)
Definition c97_late : list op :=
  map OSwap c71_swaps
  ++ [OClaimPartner 22 22 18446744073709551615 18446744073709551615; OPartnerSurplus 22 22; OMigrationFee 22 22 0;
      OClaimCreator 44 44 18446744073709551615 18446744073709551615; OCreatorSurplus 44 44; OMigrationFee 44 44 1].
Definition c97_early : list op :=
  flat_map (fun a => [OSwap a; OClaimPartner 22 22 1000 100000; OClaimCreator 44 44 7 3000]) c71_swaps
  ++ [OMigrationFee 44 44 1; OMigrationFee 22 22 0; OPartnerSurplus 22 22; OCreatorSurplus 44 44;
      OClaimCreator 44 44 18446744073709551615 18446744073709551615;
      OClaimPartner 22 22 18446744073709551615 18446744073709551615].
Example C97_case_taken :
  map fst (trades wA c97_late) = map fst (trades wA c97_early)
  /\ partner_waiting TQuote (run wA c97_late) = 0 /\ partner_waiting TQuote (run wA c97_early) = 0
  /\ creator_waiting TQuote (run wA c97_late) = 0 /\ creator_waiting TQuote (run wA c97_early) = 0
  /\ 0 < partner_received TQuote wA c97_late /\ partner_received TQuote wA c97_late = partner_received TQuote wA c97_early
  /\ 0 < creator_received TQuote wA c97_late /\ creator_received TQuote wA c97_late = creator_received TQuote wA c97_early.
Proof. vm_compute. repeat split. Qed.

Example C97_case_protocol :
  let ops := [OCreateOperator 99 88 3] ++ map OSwap c71_swaps
    ++ [OClaimProtocol 88 18446744073709551615 18446744073709551615; OCreateLocker;
        OMigrateV2 (mkExt true 20000000000000 40000000000 20000000000000 40000000000
                    (2 ^ 100) 1000000000 1000000000 true) 1700001000;
        OClaimProtocol 88 18446744073709551615 1000] in
  p_progress (w_pool (run wA ops)) = 3 /\ 1000 < total (protocol_claims TQuote) wA ops
  /\ 0 < protocol_waiting (run wA ops).
Proof. vm_compute. repeat split. Qed.

Print Assumptions C97_received_or_waiting.
Print Assumptions C97_only_trades_matter.
Print Assumptions C97_claiming_often_gains_nothing.
Print Assumptions C97_nothing_else_costs.
Print Assumptions C97_protocol_quote.
Print Assumptions C97_protocol_too.
