(** * What a trade depends on: C71. *)
From Coq Require Import ZArith QArith List Bool Lia ZifyBool PeanoNat.
From Verif Require Import Base MathModel CurveModel FeeModel ConfigModel PoolModel TxModel
  SystemModel Spec SpecHist Lib CurveProofs CurveLoops Potential CalcProofs ConfigProofs FeeProofs
  SwapProofs InvProofs InvOps InvReach Effects Frame Bounds Only PropSwap PropSafe PropFees PropPay
  Fixtures FixturesReach.
Import ListNotations.
Open Scope Z_scope.
#[local] Arguments Z.pow : simpl never.
#[local] Arguments Z.testbit : simpl never.
#[local] Arguments unless : simpl never.

(** ** Specification *)

(** What trading shows of a pool: its address and terms, the price, the two reserves, the volatility
    tracker, whether it has traded, when the curve was completed, and the lifetime fee totals. *)
Definition market_of (w : world) :=
  (w_key w, w_config w, p_activation (w_pool w),
   (p_price (w_pool w), p_base (w_pool w), p_quote (w_pool w), p_tracker (w_pool w)),
   (p_has_swap (w_pool w), p_finish (w_pool w)),
   (p_m_protocol_base (w_pool w), p_m_protocol_quote (w_pool w),
    p_m_trading_base (w_pool w), p_m_trading_quote (w_pool w))).

(** The swaps of a history that succeed, in order, each with the tokens it moves. *)
Fixpoint trades (w : world) (ops : list op) : list (swap_args * list transfer) :=
  match ops with
  | [] => []
  | o :: r =>
      match o, exec w o with
      | OSwap a, Ok _ => (a, moved w o) :: trades (step w o) r
      | _, _ => trades (step w o) r
      end
  end.

(** Tokens sent to a vault outside of any trade. *)
Definition is_gift (o : op) : bool :=
  match o with ODonateBase _ _ | ODonateQuote _ _ => true | _ => false end.

(** ** Two runs of one swap *)

(** [y] follows [x]: when [x] succeeds, [y] succeeds with a related result; or fails, and then, given
    [L], only for want of funds. *)
Definition fol {A} (P : A -> A -> Prop) (L : Prop) (x y : res A) : Prop :=
  forall a, x = Ok a -> match y with Ok b => P a b | Err e => L -> plain_err e = false end.

Lemma fol_bind {A B} (P : A -> A -> Prop) (Q : B -> B -> Prop) L x y f g :
  fol P L x y -> (forall a b, P a b -> x = Ok a -> y = Ok b -> fol Q L (f a) (g b)) ->
  fol Q L (bind x f) (bind y g).
Proof.
  intros H K b E. apply bind_ok in E. destruct E as (a & X & E). specialize (H _ X).
  destruct y as [b'|e]; simpl; [|exact H]. exact (K _ _ H X eq_refl _ E).
Qed.
Lemma fol_eq {A B} (Q : B -> B -> Prop) L (x y : res A) f g : x = y ->
  (forall a, x = Ok a -> fol Q L (f a) (g a)) -> fol Q L (bind x f) (bind y g).
Proof.
  intros <- K b E. apply bind_ok in E. destruct E as (a & X & E). specialize (K _ X _ E).
  rewrite X. simpl. exact K.
Qed.
Lemma fol_ret {A} (P : A -> A -> Prop) L a b : P a b -> fol P L (Ok a) (Ok b).
Proof. intros H x E. apply Ok_inj in E. subst x. exact H. Qed.
Lemma fol_add (L : Prop) M x y z : (L -> y <= x) ->
  fol (fun a b => a = x + z /\ b = y + z) L (sadd M x z) (sadd M y z).
Proof.
  intros H a E. apply sadd_ok in E. destruct E as (-> & B). unfold sadd.
  destruct (y + z <=? M) eqn:C; [auto|]. intros G. specialize (H G). lia.
Qed.
Lemma fol_weak {A} (P Q : A -> A -> Prop) L x y : (forall a b, P a b -> Q a b) -> fol P L x y -> fol Q L x y.
Proof. intros H K a E. specialize (K _ E). destruct y; auto. Qed.

Record alike (p q : pool) : Prop := {
  al_act : p_activation q = p_activation p;
  al_price : p_price q = p_price p;
  al_base : p_base q = p_base p;
  al_quote : p_quote q = p_quote p;
  al_tracker : p_tracker q = p_tracker p;
  al_swap : p_has_swap q = p_has_swap p;
  al_finish : p_finish q = p_finish p;
  al_mpb : p_m_protocol_base q = p_m_protocol_base p;
  al_mpq : p_m_protocol_quote q = p_m_protocol_quote p;
  al_mtb : p_m_trading_base q = p_m_trading_base p;
  al_mtq : p_m_trading_quote q = p_m_trading_quote p
}.
(** The fees waiting in [q] are at most those waiting in [p]. *)
Record lower (p q : pool) : Prop := {
  lo_pab : p_partner_base q <= p_partner_base p;
  lo_paq : p_partner_quote q <= p_partner_quote p;
  lo_prb : p_protocol_base q <= p_protocol_base p;
  lo_prq : p_protocol_quote q <= p_protocol_quote p;
  lo_crb : p_creator_base q <= p_creator_base p;
  lo_crq : p_creator_quote q <= p_creator_quote p
}.
Record agrees (w v : world) : Prop := {
  ag_key : w_key v = w_key w;
  ag_config : w_config v = w_config w;
  ag_pool : alike (w_pool w) (w_pool v)
}.
Record calmer (w v : world) : Prop := {
  ca_pool : lower (w_pool w) (w_pool v);
  ca_base : w_bvault v <= w_bvault w;
  ca_quote : w_qvault v <= w_qvault w
}.

Lemma alike_refl p : alike p p. Proof. constructor; auto. Qed.
Lemma lower_refl p : lower p p. Proof. constructor; lia. Qed.
Lemma alike_trans a b c : alike a b -> alike b c -> alike a c.
Proof. intros [] []. constructor; congruence. Qed.
Lemma lower_trans a b c : lower a b -> lower b c -> lower a c.
Proof. intros [] []. constructor; lia. Qed.
Lemma agrees_refl w : agrees w w. Proof. constructor; auto using alike_refl. Qed.
Lemma agrees_trans a b c : agrees a b -> agrees b c -> agrees a c.
Proof. intros [? ? ?] [? ? ?]. constructor; try congruence. eapply alike_trans; eauto. Qed.
Lemma agrees_sym a b : agrees a b -> agrees b a.
Proof. intros [? ? []]. constructor; auto. constructor; auto. Qed.
Lemma calmer_refl w : calmer w w. Proof. constructor; auto using lower_refl; lia. Qed.
Lemma calmer_trans a b c : calmer a b -> calmer b c -> calmer a c.
Proof. intros [? ? ?] [? ? ?]. constructor; try lia. eapply lower_trans; eauto. Qed.

Lemma market_agrees w v : market_of w = market_of v <-> agrees w v.
Proof.
  split.
  - unfold market_of. intros H. injection H; intros. constructor; auto. constructor; auto.
  - intros [K C []]. unfold market_of. congruence.
Qed.

(** Everything trading reads comes from [p], the rest from [q]. *)
Definition blend (p q : pool) : pool :=
  mkPool (p_tracker p) (p_creator q) (p_base p) (p_quote p) (p_protocol_base q) (p_protocol_quote q)
    (p_partner_base q) (p_partner_quote q) (p_creator_base q) (p_creator_quote q) (p_price p)
    (p_activation p) (p_is_migrated q) (p_partner_surplus q) (p_protocol_surplus q)
    (p_creator_surplus q) (p_progress q) (p_leftover q) (p_mig_fee_status q) (p_m_protocol_base p)
    (p_m_protocol_quote p) (p_m_trading_base p) (p_m_trading_quote p) (p_finish p) (p_legacy_bits q)
    (p_creation_bits q) (p_has_swap p) (p_mig_fee_bps q) (p_mig_base_fee q) (p_mig_quote_fee q).
Lemma blend_eq p q : alike p q -> q = blend p q.
Proof.
  intros [h1 h2 h3 h4 h5 h6 h7 h8 h9 h10 h11]. unfold blend.
  rewrite <- h1, <- h2, <- h3, <- h4, <- h5, <- h6, <- h7, <- h8, <- h9, <- h10, <- h11.
  destruct q. reflexivity.
Qed.
Lemma blend_alike p q : alike p (blend p q). Proof. constructor; reflexivity. Qed.

Lemma pre_blend c p q now :
  update_pre_swap c (blend p q) now = (do p1 <- update_pre_swap c p now ;; Ok (blend p1 q)).
Proof.
  unfold update_pre_swap. destruct (dyn_enabled _); [|reflexivity].
  cbn [blend p_tracker p_price]. destruct (update_references _ _ _ _); reflexivity.
Qed.
Lemma process_blend c p q mode a0 a1 fm d cur el :
  process_swap c (blend p q) mode a0 a1 fm d cur el = process_swap c p mode a0 a1 fm d cur el.
Proof. reflexivity. Qed.

Definition tracked (L : Prop) (p q : pool) : Prop := alike p q /\ (L -> lower p q).

Lemma post_follow L c p q old now : tracked L p q ->
  fol (tracked L) L (update_post_swap c p old now) (update_post_swap c q old now).
Proof.
  intros [A B]. unfold update_post_swap. destruct (dyn_enabled _); [|apply fol_ret; split; auto].
  rewrite (al_price _ _ A), (al_tracker _ _ A).
  apply fol_eq; [auto|]. intros vt _. apply fol_eq; [auto|]. intros d _.
  destruct A. destruct (0 <? d); (apply fol_ret; split;
    [constructor; simpl; auto|intros G; destruct (B G); constructor; auto]).
Qed.

Lemma fees_follow L c p q ob t pr : tracked L p q ->
  fol (tracked L) L (apply_fees c p ob t pr) (apply_fees c q ob t pr).
Proof.
  intros [A B]. unfold apply_fees. apply fol_eq; [auto|]. intros [pf cf] _.
  destruct ob.
  - rewrite (al_mpb _ _ A), (al_mtb _ _ A).
    eapply fol_bind; [apply fol_add; intros G; apply (B G)|]. intros a1 b1 (-> & ->) _ _.
    eapply fol_bind; [apply fol_add; intros G; apply (B G)|]. intros a2 b2 (-> & ->) _ _.
    eapply fol_bind; [apply fol_add; intros G; apply (B G)|]. intros a3 b3 (-> & ->) _ _.
    apply fol_eq; [auto|]. intros m1 _. apply fol_eq; [auto|]. intros m2 _. apply fol_ret. split.
    + destruct A. constructor; simpl; auto.
    + intros G. destruct (B G). constructor; simpl; lia.
  - rewrite (al_mpq _ _ A), (al_mtq _ _ A).
    eapply fol_bind; [apply fol_add; intros G; apply (B G)|]. intros a1 b1 (-> & ->) _ _.
    eapply fol_bind; [apply fol_add; intros G; apply (B G)|]. intros a2 b2 (-> & ->) _ _.
    eapply fol_bind; [apply fol_add; intros G; apply (B G)|]. intros a3 b3 (-> & ->) _ _.
    apply fol_eq; [auto|]. intros m1 _. apply fol_eq; [auto|]. intros m2 _. apply fol_ret. split.
    + destruct A. constructor; simpl; auto.
    + intros G. destruct (B G). constructor; simpl; lia.
Qed.

Lemma reserves_follow L p q d i o : tracked L p q ->
  fol (tracked L) L (apply_reserves p d i o) (apply_reserves q d i o).
Proof.
  intros [A B]. unfold apply_reserves. rewrite (al_base _ _ A), (al_quote _ _ A).
  destruct d; (apply fol_eq; [auto|]; intros x _; apply fol_eq; [auto|]; intros y _; apply fol_ret; split;
   [destruct A; constructor; simpl; auto | intros G; destruct (B G); constructor; simpl; lia]).
Qed.

Lemma apply_follow L c p q r fm d now : tracked L p q ->
  fol (tracked L) L (apply_swap_result c p r fm d now) (apply_swap_result c q r fm d now).
Proof.
  intros T. unfold apply_swap_result. cbv zeta.
  eapply fol_bind. { apply fees_follow. destruct T as [A B]. split.
    - destruct A. constructor; simpl; auto.
    - intros G. destruct (B G). constructor; simpl; lia. }
  intros p1 q1 T1 _ _. apply fol_eq; [auto|]. intros out _.
  eapply fol_bind; [apply reserves_follow; exact T1|]. intros p2 q2 T2 _ _.
  rewrite (al_price _ _ (proj1 T)).
  eapply fol_bind; [apply post_follow; exact T2|]. intros p3 q3 [A B] _ _.
  apply fol_ret. split.
  - destruct A. constructor; simpl; auto.
  - intros G. destruct (B G). constructor; simpl; lia.
Qed.

Definition paced (L : Prop) (w v : world) : Prop := agrees w v /\ (L -> calmer w v).

Lemma recv_base_follow L w v k a : paced L w v -> fol (paced L) L (recv_base w k a) (recv_base v k a).
Proof.
  intros [A B]. unfold recv_base. eapply fol_bind; [apply fol_add; intros G; apply (B G)|].
  intros x y (-> & ->) _ _. apply fol_ret. split; [destruct A; constructor; auto|].
  intros G. destruct (B G). constructor; simpl; auto; lia.
Qed.
Lemma recv_quote_follow L w v k a : paced L w v -> fol (paced L) L (recv_quote w k a) (recv_quote v k a).
Proof.
  intros [A B]. unfold recv_quote. eapply fol_bind; [apply fol_add; intros G; apply (B G)|].
  intros x y (-> & ->) _ _. apply fol_ret. split; [destruct A; constructor; auto|].
  intros G. destruct (B G). constructor; simpl; auto; lia.
Qed.
Lemma fol_short {A} (P Q : A -> A -> Prop) (L : Prop) x y (b b' : bool) e : plain_err e = false ->
  fol Q L x y -> fol Q L (bind (require b e) (fun _ => x)) (bind (require b' e) (fun _ => y)).
Proof.
  intros PE H a E. apply bind_ok in E. destruct E as (u & _ & E). unfold require.
  destruct b'; simpl; [exact (H _ E)|auto].
Qed.
Lemma pay_base_follow L w v k a : paced L w v -> fol (paced L) L (pay_base w k a) (pay_base v k a).
Proof.
  intros [A B]. unfold pay_base. apply fol_short; [exact (fun _ _ => True)|reflexivity|].
  apply fol_ret. split; [destruct A; constructor; auto|].
  intros G. destruct (B G). constructor; simpl; auto; lia.
Qed.
Lemma pay_quote_follow L w v k a : paced L w v -> fol (paced L) L (pay_quote w k a) (pay_quote v k a).
Proof.
  intros [A B]. unfold pay_quote. apply fol_short; [exact (fun _ _ => True)|reflexivity|].
  apply fol_ret. split; [destruct A; constructor; auto|].
  intros G. destruct (B G). constructor; simpl; auto; lia.
Qed.

Lemma transfers_follow L w v a fm r : paced L w v ->
  fol (paced L) L (swap_transfers w a fm r) (swap_transfers v a fm r).
Proof.
  intros P. unfold swap_transfers. eapply fol_bind.
  - destruct (sa_dir a).
    + eapply fol_bind; [apply recv_base_follow; exact P|]. intros w1 v1 P1 _ _. apply pay_quote_follow; exact P1.
    + eapply fol_bind; [apply recv_quote_follow; exact P|]. intros w1 v1 P1 _ _. apply pay_base_follow; exact P1.
  - intros w1 v1 P1 _ _. destruct (sa_referral a); [|apply fol_ret; exact P1].
    destruct (fm_on_base fm); [apply pay_base_follow|apply pay_quote_follow]; exact P1.
Qed.

Lemma finish_follow L w v now : paced L w v -> fol (paced L) L (finish_curve w now) (finish_curve v now).
Proof.
  intros [A B]. unfold finish_curve. cbv zeta. rewrite (ag_config _ _ A).
  unfold is_curve_complete. rewrite (al_quote _ _ (ag_pool _ _ A)).
  destruct (_ <=? _); [|apply fol_ret; split; auto].
  eapply fol_bind with (P := fun x y => L -> y <= x).
  { unfold get_protocol_and_trading_base_fee. intros x E.
    apply bind_ok in E. destruct E as (y & Y & E). apply sadd_ok in Y. destruct Y as (-> & Y).
    apply sadd_ok in E. destruct E as (-> & E).
    unfold sadd. destruct (_ <=? U64_MAX) eqn:C; simpl.
    - destruct (_ + _ + _ <=? U64_MAX) eqn:C2.
      + intros G. destruct (ca_pool _ _ (B G)). lia.
      + intros G. destruct (ca_pool _ _ (B G)). lia.
    - intros G. destruct (ca_pool _ _ (B G)). lia. }
  intros f g FG _ _.
  eapply fol_bind with (P := fun x y => L -> y <= x).
  { intros x E. apply sadd_ok in E. destruct E as (-> & E). unfold sadd.
    destruct (_ <=? U64_MAX) eqn:C; intros G; specialize (FG G); lia. }
  intros x y XY _ _. apply fol_eq; [auto|]. intros t _.
  eapply fol_bind with (P := fun x y => L -> y <= x).
  { intros z E. apply sadd_ok in E. destruct E as (-> & E). unfold sadd.
    destruct (_ <=? U64_MAX) eqn:C; intros G; specialize (XY G); lia. }
  intros x2 y2 _ _ _.
  apply fol_short; [exact (fun _ _ => True)|reflexivity|]. apply fol_ret. split.
  - destruct A as [? ? []]. constructor; simpl; auto. constructor; simpl; auto.
  - intros G. destruct (B G) as [[] ? ?]. constructor; simpl; auto. constructor; simpl; auto.
Qed.

Lemma swap_follow L w v a : paced L w v ->
  fol (fun x y => snd y = snd x /\ paced L (fst x) (fst y)) L (swap_full w a) (swap_full v a).
Proof.
  intros [A B]. unfold swap_full. cbv zeta. rewrite (ag_config _ _ A), (ag_key _ _ A).
  pose proof (ag_pool _ _ A) as P. pose proof (blend_eq _ _ P) as E.
  apply fol_eq; [auto|]. intros u _. apply fol_eq; [auto|]. intros cur _.
  apply fol_eq. { rewrite E. reflexivity. } intros u1 _.
  apply fol_eq. { rewrite E. reflexivity. } intros u2 _.
  replace (first_swap_eligible (w_config w) (w_pool v) (w_key w) (is_some (sa_referral a)) (sa_view a))
    with (first_swap_eligible (w_config w) (w_pool w) (w_key w) (is_some (sa_referral a)) (sa_view a))
    by (rewrite E; reflexivity).
  eapply fol_bind with (P := fun p1 q1 => q1 = blend p1 (w_pool v)
      /\ exists vt, p1 = set_tracker (w_pool w) vt).
  { intros p1 E1. rewrite E, pre_blend, E1. simpl. split; [rewrite <- E; reflexivity|].
    apply pre_swap_ok in E1. exact E1. }
  intros p1 q1 (-> & vt & EV) _ _. apply fol_eq; [auto|]. intros fm _.
  apply fol_eq; [symmetry; apply process_blend|]. intros r _.
  eapply fol_bind with (P := tracked L).
  { apply apply_follow. split; [apply blend_alike|].
    intros G. destruct (B G) as [[] ? ?]. subst p1. constructor; simpl; auto. }
  intros p2 q2 [A2 B2] _ _.
  eapply fol_bind with (P := paced L).
  { apply transfers_follow. split.
    - destruct A. constructor; simpl; auto.
    - intros G. destruct (B G). constructor; simpl; auto. }
  intros w1 v1 P1 _ _.
  eapply fol_bind; [apply finish_follow; exact P1|]. intros w2 v2 P2 _ _.
  apply fol_ret. split; auto.
Qed.

(** ** Everything that is not a swap *)
Lemma other_agrees w o w' : Inv w -> is_swap_op o = false -> exec w o = Ok w' -> agrees w w'.
Proof.
  intros I S H. destruct (exec_frame _ _ _ I H) as (F & M).
  assert (M' : same_market (w_pool w) (w_pool w')) by (destruct o; try discriminate S; exact M).
  destruct M'. constructor; [apply (fr_key _ _ F)|apply (fr_config _ _ F)|].
  constructor; auto. apply (pm_act _ _ (fr_pool _ _ F)).
Qed.

Lemma eff_calmer w w' p l : eff w w' p l -> lower (w_pool w) p -> net TBase l <= 0 -> net TQuote l <= 0 ->
  calmer w w'.
Proof.
  intros E L B Q. constructor.
  - rewrite (ef_pool _ _ _ _ E). exact L.
  - rewrite (ef_base _ _ _ _ E). lia.
  - rewrite (ef_quote _ _ _ _ E). lia.
Qed.

Lemma other_calmer w o w' : Inv w -> p_quote (w_pool w) < c_threshold (w_config w) ->
  is_swap_op o = false -> is_gift o = false -> exec w o = Ok w' -> calmer w w'.
Proof.
  intros I OPEN S G H. pose proof (exec_args _ _ _ H) as A.
  assert (P0 : p_progress (w_pool w) = 0) by (apply (iv_complete _ I), OPEN).
  pose proof (iv_nonneg _ I) as (N1 & N2 & N3 & N4 & N5 & N6 & N7 & N8 & N9 & N10).
  destruct o; try discriminate S; try discriminate G;
    unfold exec in H; rewrite A in H; cbn [require bind] in H; simpl in A;
    repeat rewrite andb_true_iff in A.
  - destruct A as (A1 & A2). apply u64b_ok in A1, A2. apply partner_eff in H. destruct H as (_ & E & _).
    eapply eff_calmer; [exact E|constructor; simpl; lia|simpl; unfold flow; simpl; lia|simpl; unfold flow; simpl; lia].
  - destruct A as (A1 & A2). apply u64b_ok in A1, A2. apply creator_eff in H. destruct H as (_ & E & _).
    eapply eff_calmer; [exact E|constructor; simpl; lia|simpl; unfold flow; simpl; lia|simpl; unfold flow; simpl; lia].
  - destruct A as (A1 & A2). apply u64b_ok in A1, A2. destruct A1 as (A1 & _), A2 as (A2 & _).
    apply (protocol_eff _ _ _ _ _ I A1 A2) in H.
    destruct H as (_ & p' & E & _ & a1 & b1 & a2 & b2 & X & Y & X1 & X2 & Y1 & Y2 & P').
    replace (c_threshold (w_config w) <=? p_quote (w_pool w)) with false in * by lia.
    rewrite andb_false_r in *. cbv zeta in P'.
    eapply eff_calmer; [exact E|subst p'; constructor; simpl; lia| |];
    destruct (0 <? _) eqn:C1; destruct (0 <? _ + 0) eqn:C2; simpl; unfold flow; simpl; lia.
  - apply u64b_ok in A. destruct A as (A & _). apply (zap_eff _ _ _ _ _ _ _ I A) in H.
    destruct H as (_ & _ & _ & p' & E & _ & PO & a1 & b1 & X & X1 & X2 & P').
    replace (c_threshold (w_config w) <=? p_quote (w_pool w)) with false in * by lia.
    rewrite andb_false_r in *. cbv zeta in P'.
    eapply eff_calmer; [exact E|subst p'; destruct base; constructor; simpl; lia| |];
    destruct base; simpl; unfold flow; simpl; lia.
  - apply partner_surplus_eff in H; auto. lia.
  - apply creator_surplus_eff in H; auto. lia.
  - apply migration_fee_eff in H; auto. lia.
  - apply leftover_eff in H. lia.
  - apply partner_cf_eff in H; auto. destruct H as (_ & P & _ & E & _).
    eapply eff_calmer; [exact E|constructor; simpl; lia|simpl; unfold flow; simpl; lia|simpl; unfold flow; simpl; lia].
  - apply protocol_cf_eff in H; auto. destruct H as (_ & E & _).
    eapply eff_calmer; [exact E|destruct (negb _); constructor; simpl; lia| |];
    destruct (0 <? _); simpl; unfold flow; simpl; lia.
  - apply transfer_creator_eff in H. destruct H as (_ & _ & _ & _ & E & _).
    eapply eff_calmer; [exact E|constructor; simpl; lia|simpl; lia|simpl; lia].
  - apply locker_eff in H. lia.
  - apply metadata_eff in H. destruct H as (_ & _ & E & _).
    eapply eff_calmer; [exact E|apply lower_refl|simpl; lia|simpl; lia].
  - apply migrate_v1_eff in H. destruct H as (m & m' & fb & fq & eb & eq & b & mb & _ & P & _). lia.
  - apply migrate_v2_eff in H. destruct H as (fb & fq & eb & eq & l2 & b & mb & h & _ & P & _). lia.
  - apply lock_lp_eff in H. destruct H as (m & m' & a & P & _). lia.
  - apply claim_lp_eff in H. destruct H as (m & m' & a & P & _). lia.
  - unfold create_operator in H. apply bind_ok in H. destruct H as (u & _ & H).
    apply bind_ok in H. destruct H as (u1 & _ & H). apply bind_ok in H. destruct H as (u2 & _ & H).
    apply Ok_inj in H. subst w'. destruct (calmer_refl w). constructor; auto.
  - unfold close_operator in H. apply bind_ok in H. destruct H as (u & _ & H).
    apply bind_ok in H. destruct H as (u1 & _ & H).
    apply Ok_inj in H. subst w'. destruct (calmer_refl w). constructor; auto.
  - apply Ok_inj in H. subst w'. destruct (calmer_refl w). constructor; auto.
  - apply bind_ok in H. destruct H as (u & _ & H). apply bind_ok in H. destruct H as (t & _ & H).
    apply Ok_inj in H. subst w'. destruct (calmer_refl w). constructor; auto.
  - apply bind_ok in H. destruct H as (u & _ & H).
    apply Ok_inj in H. subst w'. destruct (calmer_refl w). constructor; auto.
Qed.

Lemma step_agrees w o : Inv w -> is_swap_op o = false -> agrees w (step w o).
Proof.
  intros I S. unfold step. destruct (exec w o) eqn:E; [eapply other_agrees; eauto|apply agrees_refl].
Qed.
Lemma step_calmer w o : Inv w -> p_quote (w_pool w) < c_threshold (w_config w) ->
  is_swap_op o = false -> is_gift o = false -> calmer w (step w o).
Proof.
  intros I OP S G. unfold step. destruct (exec w o) eqn:E; [eapply other_calmer; eauto|apply calmer_refl].
Qed.

Lemma swap_open w a w' : Inv w -> exec w (OSwap a) = Ok w' -> p_quote (w_pool w) < c_threshold (w_config w).
Proof.
  intros I H. destruct (swap_eff _ _ _ I H) as (fm & r & num & fee & gross & pf & cf & cur & p1 & E & _).
  apply (se_open _ _ _ _ _ _ _ _ _ _ _ E).
Qed.

(** One successful swap in two pools that agree. *)
Lemma swap_twin w v a w' v' : Inv w -> Inv v -> agrees w v ->
  exec w (OSwap a) = Ok w' -> exec v (OSwap a) = Ok v' ->
  moved w (OSwap a) = moved v (OSwap a) /\ agrees w' v' /\ (calmer w v -> calmer w' v').
Proof.
  intros I J A H K.
  destruct (receipt_swap _ _ _ H) as (r & S & _). destruct (receipt_swap _ _ _ K) as (s & T & _).
  assert (PC : paced (calmer w v) w v) by (split; auto).
  pose proof (swap_follow _ _ _ a PC _ S) as F. rewrite T in F. simpl in F. destruct F as (-> & AG & CA).
  split; auto.
  destruct (swap_eff _ _ _ I H) as (fm & r1 & num & fee & gross & pf & cf & cur & p1 & SE & U & PS & E & _).
  destruct (swap_eff _ _ _ J K) as (fm' & r2 & num' & fee' & gross' & pf' & cf' & cur' & p1' & SE' & U' & PS' & E' & _).
  rewrite (moved_eff _ _ _ _ _ H E), (moved_eff _ _ _ _ _ K E').
  pose proof (se_fm _ _ _ _ _ _ _ _ _ _ _ SE) as F1. pose proof (se_fm _ _ _ _ _ _ _ _ _ _ _ SE') as F2.
  rewrite (ag_config _ _ A), F1 in F2. apply Ok_inj in F2. subst fm'.
  pose proof (se_point _ _ _ _ _ _ _ _ _ _ _ SE) as C1. pose proof (se_point _ _ _ _ _ _ _ _ _ _ _ SE') as C2.
  rewrite (ag_config _ _ A), C1 in C2. apply Ok_inj in C2. subst cur'.
  pose proof (blend_eq _ _ (ag_pool _ _ A)) as B.
  rewrite (ag_config _ _ A), (ag_key _ _ A) in PS'. rewrite (ag_config _ _ A) in U'.
  rewrite B, pre_blend, U in U'. simpl in U'. apply Ok_inj in U'. subst p1'.
  rewrite process_blend in PS'. rewrite B in PS'.
  change (first_swap_eligible (w_config w) (blend (w_pool w) (w_pool v)) (w_key w)
            (is_some (sa_referral a)) (sa_view a))
    with (first_swap_eligible (w_config w) (w_pool w) (w_key w) (is_some (sa_referral a)) (sa_view a)) in PS'.
  rewrite PS in PS'. apply Ok_inj in PS'. subst r2. reflexivity.
Qed.

Lemma swap_lives w v a w' : Inv w -> reachable v -> agrees w v -> calmer w v ->
  exec w (OSwap a) = Ok w' -> exists v', exec v (OSwap a) = Ok v'.
Proof.
  intros I R A C H.
  destruct (receipt_swap _ _ _ H) as (r & S & _).
  assert (PC : paced True w v) by (split; auto).
  pose proof (swap_follow _ _ _ a PC _ S) as F.
  pose proof (swap_safe v a R) as SF. pose proof (exec_args _ _ _ H) as AR.
  unfold exec, do_swap in *. rewrite AR in *. cbn [require bind] in *.
  destruct (swap_full v a) as [[v1 s]|e]; [eexists; reflexivity|]. specialize (F Logic.I). simpl in SF.
  specialize (SF _ eq_refl). congruence.
Qed.

(** ** Histories *)
Lemma trades_other w o r : is_swap_op o = false -> trades w (o :: r) = trades (step w o) r.
Proof. intros S. destruct o; try discriminate S; reflexivity. Qed.
Lemma trades_fail w a r e : exec w (OSwap a) = Err e -> trades w (OSwap a :: r) = trades w r.
Proof. intros S. cbn [trades]. unfold step. rewrite S. reflexivity. Qed.
Lemma trades_ok w a r w' : exec w (OSwap a) = Ok w' ->
  trades w (OSwap a :: r) = (a, moved w (OSwap a)) :: trades w' r.
Proof. intros S. cbn [trades]. rewrite S, (step_ok _ _ _ S). reflexivity. Qed.

Lemma no_trades ops : forall v, Inv v -> trades v ops = [] -> agrees v (run v ops).
Proof.
  induction ops as [|o r IH]; intros v I T; [apply agrees_refl|].
  change (run v (o :: r)) with (run (step v o) r).
  assert (J : Inv (step v o)) by (apply inv_step; auto).
  destruct (is_swap_op o) eqn:S.
  - destruct o; try discriminate S. destruct (exec v (OSwap a)) as [v'|e] eqn:E.
    + rewrite (trades_ok _ _ _ _ E) in T. discriminate T.
    + rewrite (trades_fail _ _ _ _ E) in T. unfold step. rewrite E. auto.
  - rewrite (trades_other _ _ _ S) in T. apply (agrees_trans _ (step v o)); [apply step_agrees; auto|auto].
Qed.

(** The first successful swap of a history. *)
Lemma first_trade ops : forall v, Inv v -> forall a l t, trades v ops = (a, l) :: t ->
  exists u u' rest, Inv u /\ agrees v u /\ exec u (OSwap a) = Ok u' /\ l = moved u (OSwap a)
    /\ t = trades u' rest /\ run v ops = run u' rest.
Proof.
  induction ops as [|o r IH]; intros v I a l t T; [discriminate T|].
  assert (J : Inv (step v o)) by (apply inv_step; auto).
  change (run v (o :: r)) with (run (step v o) r).
  destruct (is_swap_op o) eqn:S.
  - destruct o as [b| | | | | | | | | | | | | | | | | | | | | | | |]; try discriminate S.
    destruct (exec v (OSwap b)) as [v'|e] eqn:E.
    + rewrite (trades_ok _ _ _ _ E) in T. injection T; intros. subst.
      exists v, v', r. rewrite (step_ok _ _ _ E). auto 10 using agrees_refl.
    + rewrite (trades_fail _ _ _ _ E) in T. unfold step. rewrite E. eauto.
  - rewrite (trades_other _ _ _ S) in T. destruct (IH _ J _ _ _ T) as (u & u' & rest & X1 & X2 & X3).
    exists u, u', rest. split; auto. split; auto. apply (agrees_trans _ (step v o)); [apply step_agrees; auto|auto].
Qed.

Lemma twins ops1 : forall w v ops2, Inv w -> Inv v -> agrees w v ->
  map fst (trades w ops1) = map fst (trades v ops2) ->
  trades w ops1 = trades v ops2 /\ agrees (run w ops1) (run v ops2).
Proof.
  induction ops1 as [|o r IH]; intros w v ops2 I J A T.
  - simpl in T. destruct (trades v ops2) eqn:E; [|discriminate T]. split; auto.
    eapply agrees_trans; [exact A|apply no_trades; auto].
  - assert (I' : Inv (step w o)) by (apply inv_step; auto).
    change (run w (o :: r)) with (run (step w o) r).
    destruct (is_swap_op o) eqn:S.
    + destruct o as [b| | | | | | | | | | | | | | | | | | | | | | | |]; try discriminate S.
      destruct (exec w (OSwap b)) as [w'|e] eqn:E.
      * rewrite (trades_ok _ _ _ _ E) in T |- *. rewrite (step_ok _ _ _ E) in *. simpl in T.
        destruct (trades v ops2) as [|[b' l] t] eqn:V; [discriminate T|]. simpl in T.
        injection T as EB ET. subst b'.
        destruct (first_trade _ _ J _ _ _ V) as (u & u' & rest & IU & AU & EU & -> & -> & RU).
        destruct (swap_twin w u b w' u' I IU (agrees_trans _ _ _ A AU) E EU) as (M & AG & _).
        assert (JU : Inv u') by (eapply inv_exec; eauto).
        destruct (IH _ _ rest I' JU AG ET) as (T1 & T2).
        rewrite M, T1, RU. auto.
      * rewrite (trades_fail _ _ _ _ E) in *. unfold step in *. rewrite E in *. auto.
    + rewrite (trades_other _ _ _ S) in *. apply IH; auto.
      apply (agrees_trans _ w); [apply agrees_sym, step_agrees; auto|exact A].
Qed.

(** ** C71: trades depend on nothing but trades *)
Theorem C71_only_trades_matter : forall w ops1 ops2, reachable w ->
  map fst (trades w ops1) = map fst (trades w ops2) ->
  trades w ops1 = trades w ops2 /\ market_of (run w ops1) = market_of (run w ops2).
Proof.
  intros w ops1 ops2 R T. pose proof (reachable_inv _ R) as I.
  destruct (twins ops1 w w ops2 I I (agrees_refl w) T) as (T1 & T2).
  split; auto. apply market_agrees. exact T2.
Qed.

Lemma few_trades k : forall u, (length (map fst (trades u (map OSwap k))) <= length k)%nat.
Proof.
  induction k as [|x k IHk]; intros u; [simpl; lia|]. cbn [map].
  destruct (exec u (OSwap x)) as [u'|e] eqn:E.
  - rewrite (trades_ok _ _ _ _ E). simpl. specialize (IHk u'). lia.
  - rewrite (trades_fail _ _ _ _ E). specialize (IHk u). simpl. lia.
Qed.

Lemma woven ops : forall w v l, reachable w -> reachable v -> agrees w v -> (l <> [] -> calmer w v) ->
  map fst (trades w (map OSwap l)) = l -> forallb (fun o => negb (is_gift o)) ops = true ->
  filter is_swap_op ops = map OSwap l -> map fst (trades v ops) = l.
Proof.
  induction ops as [|o r IH]; intros w v l R V A C T G F.
  - simpl in F. destruct l; [reflexivity|discriminate F].
  - simpl in G. apply andb_true_iff in G. destruct G as (G & GR). apply negb_true_iff in G.
    assert (V' : reachable (step v o)) by (apply (reachable_run v [o]); auto).
    simpl in F. destruct (is_swap_op o) eqn:S.
    + destruct l as [|b l]; [discriminate F|]. simpl map in F. injection F as EO F. subst o.
      cbn [map] in T. destruct (exec w (OSwap b)) as [w'|e] eqn:E.
      * rewrite (trades_ok _ _ _ _ E) in T. simpl in T. injection T as T.
        assert (CA : calmer w v) by (apply C; discriminate).
        destruct (swap_lives w v b w' (reachable_inv _ R) V A CA E) as (v' & EV).
        destruct (swap_twin w v b w' v' (reachable_inv _ R) (reachable_inv _ V) A E EV) as (_ & AG & CC).
        rewrite (trades_ok _ _ _ _ EV). simpl. f_equal.
        apply (IH w' v' l); auto.
        -- apply (reachable_exec _ _ _ R E).
        -- apply (reachable_exec _ _ _ V EV).
      * exfalso. rewrite (trades_fail _ _ _ _ E) in T. clear - T.
        pose proof (few_trades l w) as LE. rewrite T in LE. simpl in LE. lia.
    + rewrite (trades_other _ _ _ S). apply (IH w (step v o) l); auto.
      * eapply agrees_trans; [exact A|apply step_agrees; auto; apply reachable_inv; auto].
      * intros NE. specialize (C NE). eapply calmer_trans; [exact C|].
        apply step_calmer; auto; [apply reachable_inv; auto|].
        destruct l as [|b l]; [congruence|]. cbn [map] in T.
        destruct (exec w (OSwap b)) as [w'|e] eqn:E.
        -- pose proof (swap_open _ _ _ (reachable_inv _ R) E) as OP.
           rewrite (ag_config _ _ A), (al_quote _ _ (ag_pool _ _ A)). exact OP.
        -- exfalso. rewrite (trades_fail _ _ _ _ E) in T. clear - T.
           pose proof (few_trades l w) as LE. rewrite T in LE. simpl in LE. lia.
Qed.

(** Claims, transfers of the creator role, operator changes and all the rest, done between the
    swaps at any time and in any number, neither block a swap nor change what it pays. *)
Theorem C71_nothing_gets_in_the_way : forall w swaps ops, reachable w ->
  map fst (trades w (map OSwap swaps)) = swaps ->
  filter is_swap_op ops = map OSwap swaps ->
  forallb (fun o => negb (is_gift o)) ops = true ->
  trades w ops = trades w (map OSwap swaps)
  /\ market_of (run w ops) = market_of (run w (map OSwap swaps)).
Proof.
  intros w swaps ops R T F G.
  assert (E : map fst (trades w ops) = swaps)
    by (apply (woven ops w w swaps); auto using agrees_refl, calmer_refl).
  apply C71_only_trades_matter; auto. congruence.
Qed.

(** Six swaps, the last of which completes the curve, alone; and the same swaps between claims, a
    change of creator, an operator's claim, a donation of SOL and failing instructions, followed by
    the migration. *)
Definition c71_swaps : list swap_args :=
  flat_map (fun o => match o with OSwap a => [a] | _ => [] end) (histA1 ++ histA2).
Definition c71_busy : list op :=
  match map OSwap c71_swaps with
  | a :: b :: c :: r =>
      [OCreateOperator 99 88 3; a; OClaimPartner 22 22 0 100000000; OTransferCreator 44 45;
       OClaimCreator 44 44 5 5; b; OClaimProtocol 88 18446744073709551615 18446744073709551615;
       ODonateSol 7 12345; c; OClaimCreator 45 46 18446744073709551615 18446744073709551615]
      ++ r ++ [OMigrationFee 22 22 0; OCreateLocker]
  | l => l
  end.
Example C71_case_busy :
  map fst (trades wA (map OSwap c71_swaps)) = c71_swaps /\ length c71_swaps = 6%nat
  /\ filter is_swap_op c71_busy = map OSwap c71_swaps
  /\ forallb (fun o => negb (is_gift o)) c71_busy = true /\ length c71_busy = 15%nat
  /\ (length (w_log (run wA (map OSwap c71_swaps))) < length (w_log (run wA c71_busy)))%nat.
Proof. do 5 (split; [vm_compute; reflexivity|]). apply Nat.ltb_lt. vm_compute. reflexivity. Qed.
Example C71_case_busy_same :
  trades wA c71_busy = trades wA (map OSwap c71_swaps)
  /\ market_of (run wA c71_busy) = market_of (run wA (map OSwap c71_swaps)).
Proof.
  destruct C71_case_busy as (T & _ & F & G & _).
  exact (C71_nothing_gets_in_the_way wA c71_swaps c71_busy (reachA []) T F G).
Qed.
(** Gifts of tokens change no trade either: a history with gifts and the same successful swaps. *)
Example C71_case_gifts :
  let ops := ODonateQuote 9 1000000 :: ODonateBase 9 777 :: map OSwap c71_swaps in
  map fst (trades wA ops) = map fst (trades wA (map OSwap c71_swaps))
  /\ w_qvault (run wA ops) = w_qvault (run wA (map OSwap c71_swaps)) + 1000000.
Proof. vm_compute. split; reflexivity. Qed.

Print Assumptions C71_only_trades_matter.
Print Assumptions C71_nothing_gets_in_the_way.
