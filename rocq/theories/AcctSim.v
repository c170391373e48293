(** * The handlers do not read what the account model leaves out

    Two worlds that agree on the config, the pool, the vaults, the lamports and the metadata run every
    instruction in the same way, whatever the supply, authorities, escrow and positions are. *)
From Coq Require Import ZArith List Bool Lia ZifyBool.
From Verif Require Import Base MathModel CurveModel FeeModel ConfigModel PoolModel TxModel SystemModel
  Lib Spec InvProofs InvReach.
Import ListNotations.
Open Scope Z_scope.

(** The second world has the longer history [l0] before, and may hold fewer LP tokens (nobody can
    send LP tokens to the pool authority in the single-pool model). *)
Inductive sim (l0 : list transfer) : world -> world -> Prop :=
  sim_mk k c p nb nq la s1 s2 ma1 ma2 ua1 ua2 m lp1 lp2 e1 e2 ps1 ps2 ad op l :
    lp2 <= lp1 ->
    sim l0 (mkWorld k c p nb nq la s1 ma1 ua1 m lp1 e1 ps1 ad op l)
           (mkWorld k c p nb nq la s2 ma2 ua2 m lp2 e2 ps2 ad op (l0 ++ l)).

(** Both fail with the same error, or both succeed in worlds that agree again. *)
Definition rsim (l0 : list transfer) (r1 r2 : res world) : Prop :=
  match r1, r2 with
  | Ok w1, Ok w2 => sim l0 w1 w2
  | Err e1, Err e2 => e1 = e2
  | _, _ => False
  end.

Lemma rsim_to l0 r1 r2 : rsim l0 r1 r2 -> forall w1, r1 = Ok w1 -> exists w2, r2 = Ok w2 /\ sim l0 w1 w2.
Proof. intros H w1 ->. destruct r2; simpl in H; [eauto|contradiction]. Qed.
Lemma rsim_from l0 r1 r2 : rsim l0 r1 r2 -> forall w2, r2 = Ok w2 -> exists w1, r1 = Ok w1 /\ sim l0 w1 w2.
Proof. intros H w2 ->. destruct r1; simpl in H; [eauto|contradiction]. Qed.
Lemma rsim_ok l0 w1 w2 : sim l0 w1 w2 -> rsim l0 (Ok w1) (Ok w2).
Proof. exact (fun H => H). Qed.
Lemma rsim_err l0 e : rsim l0 (Err e) (Err e).
Proof. reflexivity. Qed.
Lemma rsim_same {A} l0 (m : res A) f g :
  (forall x, m = Ok x -> rsim l0 (f x) (g x)) -> rsim l0 (bind m f) (bind m g).
Proof. intros H. destruct m; simpl; [apply H; reflexivity | reflexivity]. Qed.
Lemma rsim_bind l0 r1 r2 f g :
  rsim l0 r1 r2 -> (forall a b, sim l0 a b -> rsim l0 (f a) (g b)) -> rsim l0 (bind r1 f) (bind r2 g).
Proof. intros H K. destruct r1, r2; simpl in *; auto; contradiction. Qed.

Lemma sim_log l0 a b t : sim l0 a b -> sim l0 (log a t) (log b t).
Proof. intros []. unfold log, set_w_log. cbn. rewrite <- app_assoc. constructor. assumption. Qed.
Lemma sim_pool l0 a b p : sim l0 a b -> sim l0 (set_w_pool a p) (set_w_pool b p).
Proof. intros []. constructor. assumption. Qed.
Lemma sim_bvault l0 a b p : sim l0 a b -> sim l0 (set_w_bvault a p) (set_w_bvault b p).
Proof. intros []. constructor. assumption. Qed.
Lemma sim_qvault l0 a b p : sim l0 a b -> sim l0 (set_w_qvault a p) (set_w_qvault b p).
Proof. intros []. constructor. assumption. Qed.
Lemma sim_lamports l0 a b p : sim l0 a b -> sim l0 (set_w_lamports a p) (set_w_lamports b p).
Proof. intros []. constructor. assumption. Qed.
Lemma sim_meta l0 a b p : sim l0 a b -> sim l0 (set_w_meta a p) (set_w_meta b p).
Proof. intros []. constructor. assumption. Qed.
Lemma sim_operators l0 a b p : sim l0 a b -> sim l0 (set_w_operators a p) (set_w_operators b p).
Proof. intros []. constructor. assumption. Qed.
Lemma sim_supply l0 a b p q : sim l0 a b -> sim l0 (set_w_supply a p) (set_w_supply b q).
Proof. intros []. constructor. assumption. Qed.
Lemma sim_escrow l0 a b p q : sim l0 a b -> sim l0 (set_w_escrow a p) (set_w_escrow b q).
Proof. intros []. constructor. assumption. Qed.
Lemma sim_positions l0 a b p q : sim l0 a b -> sim l0 (set_w_positions a p) (set_w_positions b q).
Proof. intros []. constructor. assumption. Qed.
Lemma sim_lp l0 a b p q : q <= p -> sim l0 a b -> sim l0 (set_w_lp a p) (set_w_lp b q).
Proof. intros L []. constructor. assumption. Qed.

Lemma sim_eqs l0 a b : sim l0 a b ->
  w_key b = w_key a /\ w_config b = w_config a /\ w_pool b = w_pool a /\ w_bvault b = w_bvault a
  /\ w_qvault b = w_qvault a /\ w_lamports b = w_lamports a /\ w_meta b = w_meta a
  /\ w_admins b = w_admins a /\ w_operators b = w_operators a /\ w_lp b <= w_lp a
  /\ w_log b = l0 ++ w_log a.
Proof. intros []. repeat split. assumption. Qed.

(** The pieces of the handlers. *)
Ltac simrw S :=
  let H := fresh in pose proof (sim_eqs _ _ _ S) as H;
  destruct H as (?K & ?K & ?K & ?K & ?K & ?K & ?K & ?K & ?K & ?K & ?K).
#[local] Hint Resolve sim_log sim_pool sim_bvault sim_qvault sim_lamports sim_meta sim_operators sim_supply
  sim_escrow sim_positions rsim_ok rsim_err : sim.

Lemma rsim_pay_base l0 a b to n : sim l0 a b -> rsim l0 (pay_base a to n) (pay_base b to n).
Proof. intros S. simrw S. unfold pay_base. rewrite K2. apply rsim_same. eauto with sim. Qed.
Lemma rsim_pay_quote l0 a b to n : sim l0 a b -> rsim l0 (pay_quote a to n) (pay_quote b to n).
Proof. intros S. simrw S. unfold pay_quote. rewrite K3. apply rsim_same. eauto with sim. Qed.
Lemma rsim_recv_base l0 a b to n : sim l0 a b -> rsim l0 (recv_base a to n) (recv_base b to n).
Proof. intros S. simrw S. unfold recv_base. rewrite K2. apply rsim_same. eauto with sim. Qed.
Lemma rsim_recv_quote l0 a b to n : sim l0 a b -> rsim l0 (recv_quote a to n) (recv_quote b to n).
Proof. intros S. simrw S. unfold recv_quote. rewrite K3. apply rsim_same. eauto with sim. Qed.
Lemma rsim_pay_lamports l0 a b to n : sim l0 a b -> rsim l0 (pay_lamports a to n) (pay_lamports b to n).
Proof. intros S. simrw S. unfold pay_lamports. rewrite K4. apply rsim_same. eauto with sim. Qed.
Lemma rsim_burn l0 a b n : sim l0 a b -> rsim l0 (burn_base a n) (burn_base b n).
Proof. intros S. simrw S. unfold burn_base. rewrite K2. apply rsim_same. eauto with sim. Qed.
Lemma rsim_finish l0 a b now : sim l0 a b -> rsim l0 (finish_curve a now) (finish_curve b now).
Proof.
  intros S. simrw S. unfold finish_curve. rewrite K0, K1, K2.
  destruct (is_curve_complete _ _); [|eauto with sim].
  repeat (apply rsim_same; intros). eauto with sim.
Qed.
Lemma rsim_burn_rest l0 a b n : sim l0 a b -> rsim l0 (burn_rest a n) (burn_rest b n).
Proof.
  intros S. simrw S. unfold burn_rest. rewrite K0, K1, K2.
  repeat (apply rsim_same; intros). destruct (0 <? _); [apply rsim_burn; assumption|eauto with sim].
Qed.
Lemma rsim_pay_lp l0 a b to n : sim l0 a b -> n <= w_lp b -> rsim l0 (pay_lp a to n) (pay_lp b to n).
Proof.
  intros S L. simrw S. unfold pay_lp.
  replace (n <=? w_lp b) with true by lia. replace (n <=? w_lp a) with true by lia. simpl.
  apply sim_log. apply sim_lp; [lia|assumption].
Qed.

Ltac rstep :=
  match goal with
  | |- rsim _ (Err _) _ => apply rsim_err
  | |- rsim _ (bind (pay_base _ _ _) _) _ => eapply rsim_bind; [apply rsim_pay_base; eauto with sim | intros]
  | |- rsim _ (bind (pay_quote _ _ _) _) _ => eapply rsim_bind; [apply rsim_pay_quote; eauto with sim | intros]
  | |- rsim _ (bind (recv_base _ _ _) _) _ => eapply rsim_bind; [apply rsim_recv_base; eauto with sim | intros]
  | |- rsim _ (bind (recv_quote _ _ _) _) _ => eapply rsim_bind; [apply rsim_recv_quote; eauto with sim | intros]
  | |- rsim _ (bind (finish_curve _ _) _) _ => eapply rsim_bind; [apply rsim_finish; eauto with sim | intros]
  | |- rsim _ (bind (burn_rest _ _) _) _ => eapply rsim_bind; [apply rsim_burn_rest; eauto with sim | intros]
  | |- rsim _ (pay_base _ _ _) _ => apply rsim_pay_base; eauto with sim
  | |- rsim _ (pay_quote _ _ _) _ => apply rsim_pay_quote; eauto with sim
  | |- rsim _ (recv_base _ _ _) _ => apply rsim_recv_base; eauto with sim
  | |- rsim _ (recv_quote _ _ _) _ => apply rsim_recv_quote; eauto with sim
  | |- rsim _ (pay_lamports _ _ _) _ => apply rsim_pay_lamports; eauto with sim
  | |- rsim _ (Ok _) (Ok _) => apply rsim_ok; eauto with sim
  | |- rsim _ (bind ?m _) (bind ?m _) => apply rsim_same; intros
  | |- rsim _ (if ?b then _ else _) (if ?b then _ else _) => destruct b
  | |- rsim _ (let '(_, _) := ?x in _) _ => destruct x
  end.

(** The handler without the event data. *)
Lemma do_swap_eq w x : do_swap w x =
  (let c := w_config w in let p := w_pool w in
   do _ <- require (0 <? sa_amount0 x) EAmountIsZero ;;
   do cur <- current_point c (sa_slot x) (sa_now x) ;;
   do _ <- rate_limit_check c p (w_key w) cur (sa_dir x) (sa_view x) ;;
   let eligible := first_swap_eligible c p (w_key w) (is_some (sa_referral x)) (sa_view x) in
   do _ <- require (negb (is_curve_complete p (c_threshold c))) EPoolIsCompleted ;;
   do p1 <- update_pre_swap c p (sa_now x) ;;
   do fm <- get_fee_mode (c_collect_fee_mode c) (sa_dir x) (is_some (sa_referral x)) ;;
   do r <- process_swap c p1 (sa_mode x) (sa_amount0 x) (sa_amount1 x) fm (sa_dir x) cur eligible ;;
   do p2 <- apply_swap_result c p1 r fm (sa_dir x) (sa_now x) ;;
   do w1 <- swap_transfers (set_w_pool w p2) x fm r ;;
   finish_curve w1 (sa_now x)).
Proof.
  unfold do_swap, swap_full. cbv zeta.
  repeat match goal with |- context [bind ?m _] =>
    lazymatch m with
    | bind _ _ => fail
    | _ => destruct m; cbn [bind]; try reflexivity
    end end.
Qed.

Lemma rsim_swap_transfers l0 a b x fm r :
  sim l0 a b -> rsim l0 (swap_transfers a x fm r) (swap_transfers b x fm r).
Proof.
  intros S. unfold swap_transfers. eapply rsim_bind.
  - destruct (sa_dir x); repeat rstep.
  - intros. destruct (sa_referral x); repeat rstep.
Qed.

Lemma rsim_do_swap l0 a b x : sim l0 a b -> rsim l0 (do_swap a x) (do_swap b x).
Proof.
  intros S. rewrite !do_swap_eq. simrw S. rewrite K, K0, K1. cbv zeta.
  do 8 (apply rsim_same; intros).
  eapply rsim_bind; [apply rsim_swap_transfers; eauto with sim|intros].
  apply rsim_finish. assumption.
Qed.

Lemma sim_w_pool l0 a b : sim l0 a b -> w_pool b = w_pool a. Proof. intros []. reflexivity. Qed.
Lemma sim_w_config l0 a b : sim l0 a b -> w_config b = w_config a. Proof. intros []. reflexivity. Qed.
Lemma sim_w_bvault l0 a b : sim l0 a b -> w_bvault b = w_bvault a. Proof. intros []. reflexivity. Qed.
Lemma sim_w_meta l0 a b : sim l0 a b -> w_meta b = w_meta a. Proof. intros []. reflexivity. Qed.
Lemma sim_w_operators l0 a b : sim l0 a b -> w_operators b = w_operators a. Proof. intros []. reflexivity. Qed.
Lemma sim_w_admins l0 a b : sim l0 a b -> w_admins b = w_admins a. Proof. intros []. reflexivity. Qed.
Lemma sim_w_lamports l0 a b : sim l0 a b -> w_lamports b = w_lamports a. Proof. intros []. reflexivity. Qed.
Ltac sync := repeat match goal with
  | S : sim ?l ?a ?b |- context [w_pool ?b] => rewrite (sim_w_pool l a b S)
  | S : sim ?l ?a ?b |- context [w_config ?b] => rewrite (sim_w_config l a b S)
  | S : sim ?l ?a ?b |- context [w_bvault ?b] => rewrite (sim_w_bvault l a b S)
  | S : sim ?l ?a ?b |- context [w_meta ?b] => rewrite (sim_w_meta l a b S)
  | S : sim ?l ?a ?b |- context [w_operators ?b] => rewrite (sim_w_operators l a b S)
  | S : sim ?l ?a ?b |- context [w_admins ?b] => rewrite (sim_w_admins l a b S)
  | S : sim ?l ?a ?b |- context [w_lamports ?b] => rewrite (sim_w_lamports l a b S)
  end.
Ltac go := repeat (sync; rstep).

Lemma sim_end l0 a b m lp g :
  sim l0 a b ->
  sim l0 (set_w_pool (set_w_lp (set_w_meta a m) lp) (g (w_pool (set_w_lp (set_w_meta a m) lp))))
         (set_w_pool (set_w_lp (set_w_meta b m) lp) (g (w_pool (set_w_lp (set_w_meta b m) lp)))).
Proof. intros []. constructor. apply Z.le_refl. Qed.

Lemma rsim_migrate_v1 l0 a b ok lp : sim l0 a b -> rsim l0 (migrate_v1 a ok lp) (migrate_v1 b ok lp).
Proof.
  intros S. unfold migrate_v1, migration_ready, migration_split. cbv zeta.
  go.
  match goal with H : sim _ ?x ?y |- sim _ (set_w_pool (set_w_lp (set_w_meta ?x ?m) ?lp) _) _ =>
    exact (sim_end l0 x y m lp (fun p => set_progress p CreatedPool) H) end.
Qed.

Lemma rsim_migrate_v2 l0 a b x now : sim l0 a b -> rsim l0 (migrate_v2 a x now) (migrate_v2 b x now).
Proof.
  intros S. unfold migrate_v2, migration_ready, migration_split. cbv zeta. sync.
  do 3 (apply rsim_same; intros). apply rsim_same; intros [[[fb fq] eb] eq] _.
  apply rsim_same; intros [[price liq] dead] _.
  apply rsim_same; intros [pt cr] _.
  do 2 (apply rsim_same; intros).
  match goal with |- context [if ?c then _ else _] => destruct c end;
  (repeat (apply rsim_same; intros);
   eapply rsim_bind; [apply rsim_pay_base; eauto with sim|intros];
   eapply rsim_bind; [apply rsim_pay_quote; eauto with sim|intros];
   repeat (apply rsim_same; intros);
   eapply rsim_bind;
   [ destruct (0 <? _); [repeat (apply rsim_same; intros); go | go]
   | intros; cbv beta; sync; eapply rsim_bind; [apply rsim_burn_rest; eauto with sim|intros]; go ]).
Qed.

Lemma lock_amount w m m' n owner :
  Inv w -> w_meta w = Some m -> 
  match owner =? m_partner m, owner =? p_creator (w_pool w) with
  | true, true => lock_as_self m
  | true, false => lock_as_partner m
  | false, true => lock_as_creator m
  | false, false => Err EInvalidOwnerAccount
  end = Ok (m', n) \/
  match owner =? m_partner m, owner =? p_creator (w_pool w) with
  | true, true => claim_as_self m
  | true, false => claim_as_partner m
  | false, true => claim_as_creator m
  | false, false => Err EInvalidOwnerAccount
  end = Ok (m', n) ->
  n <= w_lp w.
Proof.
  intros I M R. pose proof (iv_meta _ I) as MI. rewrite M in MI.
  destruct MI as (M1 & M2 & M3 & M4 & M5 & M6 & M7 & M8 & M9).
  destruct (meta_lock_ok w m m' n owner (w_pool w) M M1 M2 M3 M4 M5 M6 M7 M8 R)
    as ((Q1 & Q2 & Q3 & Q4 & _) & LO).
  pose proof (iv_lp _ I) as L.
  assert (0 <= lp_owed (set_w_meta w (Some m'))).
  { unfold lp_owed, unless. simpl.
    repeat match goal with |- context [if ?c then _ else _] => destruct c end; lia. }
  lia.
Qed.

Lemma rsim_lock_lp l0 a b o : sim l0 a b -> Inv b -> rsim l0 (lock_lp a o) (lock_lp b o).
Proof.
  intros S I. unfold lock_lp. pose proof (sim_w_meta _ _ _ S) as M. pose proof (sim_w_pool _ _ _ S) as P.
  sync. apply rsim_same; intros. apply rsim_same; intros m Hm. apply ok_or_ok in Hm.
  apply rsim_same; intros [m' n] R. apply rsim_pay_lp; [eauto with sim|].
  cbn [w_lp set_w_meta]. eapply lock_amount; [exact I|rewrite M; exact Hm|rewrite P; left; exact R].
Qed.
Lemma rsim_claim_lp l0 a b o : sim l0 a b -> Inv b -> rsim l0 (claim_lp a o) (claim_lp b o).
Proof.
  intros S I. unfold claim_lp. pose proof (sim_w_meta _ _ _ S) as M. pose proof (sim_w_pool _ _ _ S) as P.
  sync. apply rsim_same; intros. apply rsim_same; intros m Hm. apply ok_or_ok in Hm.
  apply rsim_same; intros [m' n] R. apply rsim_pay_lp; [eauto with sim|].
  cbn [w_lp set_w_meta]. eapply lock_amount; [exact I|rewrite M; exact Hm|rewrite P; right; exact R].
Qed.

(** Every instruction except minting and burning, which depend on the authority and the supply. *)
Lemma rsim_exec l0 a b o : sim l0 a b -> Inv b -> (forall s k n, o <> OMint s k n) ->
  (forall s n, o <> OBurn s n) ->
  rsim l0 (exec a o) (exec b o).
Proof.
  intros S I NM NB. unfold exec. apply rsim_same; intros _ _.
  destruct o.
  - apply rsim_do_swap; assumption.
  - unfold claim_partner_fee, check_partner. go.
  - unfold claim_creator_fee, check_creator. go.
  - unfold claim_protocol_fee, check_operator. sync. apply rsim_same; intros. sync.
    apply rsim_same; intros [p1 n1] _. eapply rsim_bind; [destruct (0 <? n1); go|intros]. go.
  - unfold zap_protocol_fee, check_operator. go.
  - unfold withdraw_partner_surplus, check_partner. cbv zeta. go.
  - unfold withdraw_creator_surplus, check_creator. cbv zeta. go.
  - unfold withdraw_migration_fee. cbv zeta. go.
  - unfold withdraw_leftover. cbv zeta. go.
  - unfold claim_partner_creation_fee, check_partner. cbv zeta. go.
  - unfold claim_protocol_creation_fee, check_operator. cbv zeta. go.
  - unfold transfer_creator, check_creator. cbv zeta. go.
  - unfold create_locker. cbv zeta. go.
  - unfold create_v1_metadata. go.
  - apply rsim_migrate_v1; assumption.
  - apply rsim_migrate_v2; assumption.
  - apply rsim_lock_lp; assumption.
  - apply rsim_claim_lp; assumption.
  - unfold create_operator, check_admin. go.
  - unfold close_operator, check_admin. go.
  - go.
  - go.
  - go.
  - exfalso. eapply NM. reflexivity.
  - exfalso. eapply NB. reflexivity.
Qed.
