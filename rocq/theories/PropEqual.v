(** * C73: equal treatment. Who trades, who refers them and which limit they set changes nothing about
    the terms of a trade. *)
From Coq Require Import ZArith List Bool Lia ZifyBool.
From Verif Require Import Base MathModel CurveModel FeeModel ConfigModel PoolModel TxModel
  SystemModel Fixtures Spec Lib CurveProofs CurveLoops Potential CalcProofs ConfigProofs FeeProofs
  SwapProofs InvProofs InvOps InvReach FixturesReach PropSwap Effects Frame PropTx PropTrade.
Import ListNotations.
Open Scope Z_scope.
#[local] Arguments Z.pow : simpl never.
#[local] Arguments Z.testbit : simpl never.

(** ** Specification *)

(** The same request: direction, kind, amount and time; and both or neither come in the bundle that
    creates the pool. The traders, their referrers and their limits may differ. *)
Definition same_request (w : world) (a b : swap_args) : Prop :=
  sa_dir b = sa_dir a /\ sa_mode b = sa_mode a /\ sa_amount0 b = sa_amount0 a
  /\ sa_slot b = sa_slot a /\ sa_now b = sa_now a
  /\ (bundle_entitled w a <-> bundle_entitled w b).

(** What the referrer, if any, is paid. *)
Definition referred (a : swap_args) (x : Z) : Z := match sa_referral a with Some _ => x | None => 0 end.

(** ** Two runs that both succeed *)
Definition both {A} (P : A -> A -> Prop) (x y : res A) : Prop :=
  forall a b, x = Ok a -> y = Ok b -> P a b.

Lemma both_bind {A B} (P : A -> A -> Prop) (Q : B -> B -> Prop) x y f g :
  both P x y -> (forall a b, P a b -> both Q (f a) (g b)) -> both Q (bind x f) (bind y g).
Proof.
  intros H K a b X Y. apply bind_ok in X, Y. destruct X as (a' & X & X'), Y as (b' & Y & Y').
  exact (K _ _ (H _ _ X Y) _ _ X' Y').
Qed.
Lemma both_eq {A B} (Q : B -> B -> Prop) (x : res A) f g :
  (forall a, both Q (f a) (g a)) -> both Q (bind x f) (bind x g).
Proof. intros H. apply both_bind with (P := eq). { intros a b X Y. congruence. } intros a ? <-. apply H. Qed.
Lemma both_same {A} (x : res A) : both eq x x. Proof. intros a b X Y. congruence. Qed.
Lemma both_ok {A} (P : A -> A -> Prop) a b : P a b -> both P (Ok a) (Ok b).
Proof. intros H x y X Y. apply Ok_inj in X, Y. subst. exact H. Qed.
Lemma both_any {A B C} (Q : B -> B -> Prop) (x : res A) (y : res C) f g :
  (forall a b, both Q (f a) (g b)) -> both Q (bind x f) (bind y g).
Proof.
  intros K a b X Y. apply bind_ok in X, Y. destruct X as (a' & X & X'), Y as (b' & Y & Y').
  exact (K _ _ _ _ X' Y').
Qed.

Definition split_like (x y : Z * Z * Z) : Prop :=
  let '(t, p, r) := x in let '(t', p', r') := y in t' = t /\ p' + r' = p + r.
Lemma split_both fee rf rf' : both split_like (split_fees fee rf) (split_fees fee rf').
Proof.
  unfold split_fees. apply both_eq. intros p. apply both_eq. intros t. apply both_any. intros r r'.
  apply both_bind with (P := fun a b => b + r' = a + r).
  { intros a b X Y. apply ssub_ok in X, Y. lia. }
  intros a b E. apply both_ok. split; [reflexivity|exact E].
Qed.

Definition foa_like (x y : fee_on_amount) : Prop :=
  foa_amount y = foa_amount x /\ foa_trading y = foa_trading x
  /\ foa_protocol y + foa_referral y = foa_protocol x + foa_referral x.
Lemma foa_both num x rf rf' : both foa_like (get_fee_on_amount num x rf) (get_fee_on_amount num x rf').
Proof.
  unfold get_fee_on_amount. apply both_eq. intros [excl fee]. apply both_eq. intros p. apply both_eq. intros t.
  apply both_any. intros r r'. apply both_bind with (P := fun a b => b + r' = a + r).
  { intros a b X Y. apply ssub_ok in X, Y. lia. }
  intros a b E. apply both_ok. repeat split; exact E.
Qed.

Record res_like (x y : swap_result) : Prop := {
  rl_included : sr_included y = sr_included x;
  rl_excluded : sr_excluded y = sr_excluded x;
  rl_output : sr_output y = sr_output x;
  rl_price : sr_price y = sr_price x;
  rl_trading : sr_trading y = sr_trading x;
  rl_protocol : sr_protocol y + sr_referral y = sr_protocol x + sr_referral x }.

Lemma foa_choice (on : bool) num x rf rf' (u v : fee_on_amount) : foa_like u v ->
  both foa_like (if on then Ok u else get_fee_on_amount num x rf)
                (if on then Ok v else get_fee_on_amount num x rf').
Proof. intros H. destruct on; [apply both_ok; exact H|apply foa_both]. Qed.
Lemma foa_choice' (on : bool) num x rf rf' (u v : fee_on_amount) : foa_like u v ->
  both foa_like (if on then get_fee_on_amount num x rf else Ok u)
                (if on then get_fee_on_amount num x rf' else Ok v).
Proof. intros H. destruct on; [apply foa_both|apply both_ok; exact H]. Qed.
Lemma foa_refl u : foa_like u u. Proof. repeat split. Qed.

Lemma exact_in_both c p x fi fb rf rf' d cur el :
  both res_like (swap_exact_in c p x (mkFeeMode fi fb rf) d cur el)
                (swap_exact_in c p x (mkFeeMode fi fb rf') d cur el).
Proof.
  unfold swap_exact_in. cbn [fm_on_input fm_referral]. apply both_eq. intros num.
  eapply both_bind. { apply foa_choice'. apply foa_refl. }
  intros f f' (F1 & F2 & F3). rewrite F1. apply both_eq. intros r. apply both_eq. intros u.
  eapply both_bind. { apply foa_choice. repeat split; cbn; assumption. }
  intros g g' (G1 & G2 & G3). apply both_ok. constructor; cbn; auto.
Qed.

Definition part_like (x y : Z * Z * Z * Z * Z) : Prop :=
  let '(i, a, t, p, r) := x in let '(i', a', t', p', r') := y in
  i' = i /\ a' = a /\ t' = t /\ p' + r' = p + r.
Lemma partial_both c p x fi fb rf rf' d cur el :
  both res_like (swap_partial c p x (mkFeeMode fi fb rf) d cur el)
                (swap_partial c p x (mkFeeMode fi fb rf') d cur el).
Proof.
  unfold swap_partial. cbn [fm_on_input fm_referral]. apply both_eq. intros num.
  eapply both_bind. { apply foa_choice'. apply foa_refl. }
  intros f f' (F1 & F2 & F3). rewrite F1. apply both_eq. intros r.
  eapply both_bind with (P := part_like).
  { destruct (negb (fi_left r =? 0)); [|apply both_ok; cbn; auto].
    apply both_eq. intros actual. destruct fi; [|apply both_ok; cbn; auto].
    apply both_eq. intros n. apply both_eq. intros [incl fee].
    eapply both_bind; [apply split_both|]. intros [[t1 p1] r1] [[t2 p2] r2] (S1 & S2).
    apply both_ok. cbn. auto. }
  intros [[[[i1 a1] t1] p1] r1] [[[[i2 a2] t2] p2] r2] (E1 & E2 & E3 & E4).
  eapply both_bind. { apply foa_choice. repeat split; cbn; assumption. }
  intros g g' (G1 & G2 & G3). apply both_ok. constructor; cbn; auto.
Qed.

Definition quad_like (x y : Z * Z * Z * Z) : Prop :=
  let '(i, t, p, r) := x in let '(i', t', p', r') := y in i' = i /\ t' = t /\ p' + r' = p + r.
Lemma exact_out_both c p x fi fb rf rf' d cur el :
  both res_like (swap_exact_out c p x (mkFeeMode fi fb rf) d cur el)
                (swap_exact_out c p x (mkFeeMode fi fb rf') d cur el).
Proof.
  unfold swap_exact_out. cbn [fm_on_input fm_referral].
  eapply both_bind with (P := quad_like).
  { destruct fi; [apply both_ok; cbn; auto|]. apply both_eq. intros n. apply both_eq. intros [incl fee].
    eapply both_bind; [apply split_both|]. intros [[t1 p1] r1] [[t2 p2] r2] (S1 & S2).
    apply both_ok. cbn. auto. }
  intros [[[i1 t1] p1] r1] [[[i2 t2] p2] r2] (E1 & E2 & E3). subst i2.
  apply both_eq. intros r. apply both_eq. intros u.
  eapply both_bind with (P := quad_like).
  { destruct fi; [|apply both_ok; cbn; auto]. apply both_eq. intros n. apply both_eq. intros [incl fee].
    eapply both_bind; [apply split_both|]. intros [[t3 p3] r3] [[t4 p4] r4] (S1 & S2).
    apply both_ok. cbn. auto. }
  intros [[[i3 t3] p3] r3] [[[i4 t4] p4] r4] (D1 & D2 & D3).
  apply both_ok. constructor; cbn; auto.
Qed.

Lemma process_both c p m x l l' fi fb rf rf' d cur el :
  both res_like (process_swap c p m x l (mkFeeMode fi fb rf) d cur el)
                (process_swap c p m x l' (mkFeeMode fi fb rf') d cur el).
Proof.
  unfold process_swap.
  destruct (m =? 0). { eapply both_bind; [apply exact_in_both|]. intros. apply both_any. intros. apply both_ok. assumption. }
  destruct (m =? 1). { eapply both_bind; [apply partial_both|]. intros. apply both_any. intros. apply both_ok. assumption. }
  destruct (m =? 2). { eapply both_bind; [apply exact_out_both|]. intros. apply both_any. intros. apply both_ok. assumption. }
  intros a b X. discriminate X.
Qed.

(** Pools that differ at most in the protocol's fees and in their lifetime total. *)
Record pool_like (k : token -> Z) (p q : pool) : Prop := {
  pl_same : set_protocol_base (set_protocol_quote (set_m_protocol_base (set_m_protocol_quote q 0) 0) 0) 0
          = set_protocol_base (set_protocol_quote (set_m_protocol_base (set_m_protocol_quote p 0) 0) 0) 0;
  pl_base : p_protocol_base q = p_protocol_base p + k TBase;
  pl_quote : p_protocol_quote q = p_protocol_quote p + k TQuote;
  pl_mbase : p_m_protocol_base q = p_m_protocol_base p + k TBase;
  pl_mquote : p_m_protocol_quote q = p_m_protocol_quote p + k TQuote }.

Definition keep (fb : bool) (x : Z) (t : token) : Z :=
  match t with TBase => if fb then x else 0 | TQuote => if fb then 0 else x | _ => 0 end.

Lemma fees_both c p fb t p1 p2 :
  both (pool_like (keep fb (p2 - p1))) (apply_fees c p fb t p1) (apply_fees c p fb t p2).
Proof.
  unfold apply_fees. apply both_eq. intros [pf cf]. destruct fb.
  - apply both_eq. intros a. apply both_bind with (P := fun x y => y = x + (p2 - p1)).
    { intros x y X Y. apply sadd_ok in X, Y. lia. }
    intros b b' ->. apply both_eq. intros e. apply both_bind with (P := fun x y => y = x + (p2 - p1)).
    { intros x y X Y. apply sadd_ok in X, Y. lia. }
    intros m m' ->. apply both_eq. intros mt. apply both_ok. constructor; cbn; try lia. reflexivity.
  - apply both_eq. intros a. apply both_bind with (P := fun x y => y = x + (p2 - p1)).
    { intros x y X Y. apply sadd_ok in X, Y. lia. }
    intros b b' ->. apply both_eq. intros e. apply both_bind with (P := fun x y => y = x + (p2 - p1)).
    { intros x y X Y. apply sadd_ok in X, Y. lia. }
    intros m m' ->. apply both_eq. intros mt. apply both_ok. constructor; cbn; try lia. reflexivity.
Qed.

Lemma like_rest k p q : pool_like k p q ->
  q = set_protocol_base (set_protocol_quote (set_m_protocol_base (set_m_protocol_quote p
        (p_m_protocol_quote q)) (p_m_protocol_base q)) (p_protocol_quote q)) (p_protocol_base q).
Proof.
  intros [S _ _ _ _].
  assert (E : forall x, x = set_protocol_base (set_protocol_quote (set_m_protocol_base (set_m_protocol_quote
    (set_protocol_base (set_protocol_quote (set_m_protocol_base (set_m_protocol_quote x 0) 0) 0) 0)
        (p_m_protocol_quote x)) (p_m_protocol_base x)) (p_protocol_quote x)) (p_protocol_base x))
    by (intros []; reflexivity).
  rewrite (E q) at 1. rewrite S. destruct p. reflexivity.
Qed.

Lemma reserves_both k p q d i o : pool_like k p q ->
  both (pool_like k) (apply_reserves p d i o) (apply_reserves q d i o).
Proof.
  intros H. pose proof (like_rest _ _ _ H) as E. destruct H as [_ h1 h2 h3 h4]. unfold apply_reserves.
  destruct d; rewrite E; cbn [p_base p_quote set_protocol_base set_protocol_quote set_m_protocol_base set_m_protocol_quote];
    apply both_eq; intros x; apply both_eq; intros y; apply both_ok; constructor; cbn; auto.
Qed.

Lemma post_both k c p q old now : pool_like k p q ->
  both (pool_like k) (update_post_swap c p old now) (update_post_swap c q old now).
Proof.
  intros H. pose proof (like_rest _ _ _ H) as E. pose proof H as [_ h1 h2 h3 h4]. unfold update_post_swap.
  destruct (dyn_enabled _); [|apply both_ok; exact H].
  replace (p_tracker q) with (p_tracker p) by (rewrite E; reflexivity).
  replace (p_price q) with (p_price p) by (rewrite E; reflexivity).
  apply both_eq. intros vt. apply both_eq. intros x.
  destruct (0 <? x); apply both_ok; rewrite E; constructor; cbn; auto.
Qed.

Lemma apply_both c p r r' fi fb rf rf' d now : res_like r r' ->
  both (pool_like (keep fb (sr_protocol r' - sr_protocol r)))
    (apply_swap_result c p r (mkFeeMode fi fb rf) d now) (apply_swap_result c p r' (mkFeeMode fi fb rf') d now).
Proof.
  intros [R1 R2 R3 R4 R5 R6]. unfold apply_swap_result. cbv zeta. cbn [fm_on_base]. rewrite R4, R5.
  eapply both_bind; [apply fees_both|]. intros p1 q1 L1.
  apply both_bind with (P := eq).
  { unfold actual_output. cbn [fm_on_input]. destruct fi; [apply both_ok; auto|].
    intros x y X Y. apply bind_ok in X, Y. destruct X as (x1 & X1 & X), Y as (y1 & Y1 & Y).
    apply bind_ok in X, Y. destruct X as (x2 & X2 & X), Y as (y2 & Y2 & Y).
    apply sadd_ok in X, Y, X1, Y1, X2, Y2. lia. }
  intros o ? <-. rewrite R2. eapply both_bind; [apply reserves_both; exact L1|]. intros p2 q2 L2.
  eapply both_bind; [apply post_both; exact L2|]. intros p3 q3 L3. apply both_ok.
  pose proof (like_rest _ _ _ L3) as E. destruct L3 as [_ h1 h2 h3 h4]. rewrite E. constructor; cbn; auto.
Qed.

Lemma finish_both k w v now w' v' : w_config v = w_config w -> pool_like k (w_pool w) (w_pool v) ->
  finish_curve w now = Ok w' -> finish_curve v now = Ok v' ->
  pool_like k (w_pool w') (w_pool v').
Proof.
  intros C H X Y. unfold finish_curve in X, Y. cbv zeta in X, Y. rewrite C in Y.
  pose proof (like_rest _ _ _ H) as E. pose proof H as [_ h1 h2 h3 h4].
  replace (is_curve_complete (w_pool v) (c_threshold (w_config w)))
    with (is_curve_complete (w_pool w) (c_threshold (w_config w))) in Y by (rewrite E; reflexivity).
  destruct (is_curve_complete _ _).
  - repeat (apply bind_ok in X; destruct X as (? & _ & X)). repeat (apply bind_ok in Y; destruct Y as (? & _ & Y)).
    apply Ok_inj in X, Y. subst w' v'. cbn [w_pool set_w_pool]. rewrite E.
    destruct (has_vesting _); constructor; cbn; auto.
  - apply Ok_inj in X, Y. subst. exact H.
Qed.

Lemma transfers_keep w a fm r w' : swap_transfers w a fm r = Ok w' -> w_pool w' = w_pool w /\ w_config w' = w_config w.
Proof.
  unfold swap_transfers. intros H. apply bind_ok in H. destruct H as (w1 & H1 & H).
  assert (E1 : w_pool w1 = w_pool w /\ w_config w1 = w_config w).
  { destruct (sa_dir a); apply bind_ok in H1; destruct H1 as (w0 & H0 & H1); unfold recv_base, recv_quote, pay_base, pay_quote in *;
    apply bind_ok in H0; destruct H0 as (? & _ & H0); apply bind_ok in H1; destruct H1 as (? & _ & H1);
    apply Ok_inj in H0, H1; subst; auto. }
  destruct (sa_referral a); [|apply Ok_inj in H; subst; auto].
  destruct (fm_on_base fm); unfold pay_base, pay_quote in H; apply bind_ok in H; destruct H as (? & _ & H);
    apply Ok_inj in H; subst; auto.
Qed.

Lemma entitled_alike w a b : (bundle_entitled w a <-> bundle_entitled w b) -> entitled w b = entitled w a.
Proof.
  intros H. pose proof (eligible_iff w a) as A. pose proof (eligible_iff w b) as B. unfold entitled.
  destruct (first_swap_eligible _ _ _ (is_some (sa_referral a)) _), (first_swap_eligible _ _ _ (is_some (sa_referral b)) _);
    try reflexivity; intuition congruence.
Qed.

Lemma swap_both w a b w' v' ra rb : same_request w a b ->
  swap_full w a = Ok (w', ra) -> swap_full w b = Ok (v', rb) ->
  exists fi fb, get_fee_mode (c_collect_fee_mode (w_config w)) (sa_dir a) (is_some (sa_referral a)) = Ok (mkFeeMode fi fb (is_some (sa_referral a)))
    /\ get_fee_mode (c_collect_fee_mode (w_config w)) (sa_dir a) (is_some (sa_referral b)) = Ok (mkFeeMode fi fb (is_some (sa_referral b)))
    /\ res_like ra rb /\ pool_like (keep fb (sr_protocol rb - sr_protocol ra)) (w_pool w') (w_pool v').
Proof.
  intros (D & M & X0 & SL & NW & EN) A B. unfold swap_full in A, B. cbv zeta in A, B.
  pose proof (entitled_alike _ _ _ EN) as EL. unfold entitled in EL. rewrite D, M, X0, SL, NW, EL in B.
  apply bind_ok in A. destruct A as (_ & _ & A). apply bind_ok in B. destruct B as (_ & _ & B).
  apply bind_ok in A. destruct A as (cur & CU & A). rewrite CU in B. cbn [bind] in B.
  apply bind_ok in A. destruct A as (_ & _ & A). apply bind_ok in B. destruct B as (_ & _ & B).
  apply bind_ok in A. destruct A as (_ & _ & A). apply bind_ok in B. destruct B as (_ & _ & B).
  apply bind_ok in A. destruct A as (p1 & P1 & A). rewrite P1 in B. cbn [bind] in B.
  apply bind_ok in A. destruct A as (fm & FM & A). apply bind_ok in B. destruct B as (fm' & FM' & B).
  assert (S : exists fi fb, fm = mkFeeMode fi fb (is_some (sa_referral a)) /\ fm' = mkFeeMode fi fb (is_some (sa_referral b))).
  { unfold get_fee_mode in FM, FM'. apply bind_ok in FM. destruct FM as (cm & CM & FM). rewrite CM in FM'.
    cbn [bind] in FM'. apply Ok_inj in FM, FM'. subst. destruct cm, (sa_dir a); eauto. }
  destruct S as (fi & fb & -> & ->). exists fi, fb. split; [exact FM|]. split; [exact FM'|].
  apply bind_ok in A. destruct A as (r1 & PA & A). apply bind_ok in B. destruct B as (r2 & PB & B).
  apply bind_ok in A. destruct A as (p2 & AA & A). apply bind_ok in B. destruct B as (q2 & AB & B).
  apply bind_ok in A. destruct A as (w1 & TA & A). apply bind_ok in B. destruct B as (v1 & TB & B).
  apply bind_ok in A. destruct A as (w2 & FA & A). apply bind_ok in B. destruct B as (v2 & FB & B).
  apply Ok_inj, pair_inj in A. destruct A as (-> & ->). apply Ok_inj, pair_inj in B. destruct B as (-> & ->).
  pose proof (process_both _ _ _ _ _ _ _ _ _ _ _ _ _ _ _ PA PB) as RL. split; [exact RL|].
  pose proof (apply_both _ _ _ _ _ _ _ _ _ _ RL _ _ AA AB) as PL.
  apply transfers_keep in TA. apply transfers_keep in TB. destruct TA as (TA1 & TA2), TB as (TB1 & TB2).
  cbn [w_pool w_config set_w_pool] in *.
  eapply finish_both; [| |exact FA|exact FB]; [congruence|]. rewrite TA1, TB1. exact PL.
Qed.

(** Whoever asks, whoever refers them and whatever limit they set: the payment, what it buys, the
    price, the reserves and everybody's fees are the same. A referrer is paid by the protocol alone. *)
Theorem C73_equal_treatment : forall w a b wa wb, reachable w -> same_request w a b ->
  exec w (OSwap a) = Ok wa -> exec w (OSwap b) = Ok wb ->
  exists paid got ft xa xb,
    w_log wa = w_log w ++ swap_movements a paid got ft xa
    /\ w_log wb = w_log w ++ swap_movements b paid got ft xb
    /\ (forall t, reserve t (w_pool wb) = reserve t (w_pool wa))
    /\ p_price (w_pool wb) = p_price (w_pool wa) /\ p_tracker (w_pool wb) = p_tracker (w_pool wa)
    /\ p_finish (w_pool wb) = p_finish (w_pool wa) /\ p_progress (w_pool wb) = p_progress (w_pool wa)
    /\ (forall t, partner_fees t (w_pool wb) = partner_fees t (w_pool wa)
                  /\ creator_fees t (w_pool wb) = creator_fees t (w_pool wa)
                  /\ protocol_fees t (w_pool wb) + on ft t (referred b xb)
                     = protocol_fees t (w_pool wa) + on ft t (referred a xa)).
Proof.
  intros w a b wa wb R SR EA EB. pose proof (reachable_inv _ R) as I.
  assert (G : forall a wa, exec w (OSwap a) = Ok wa -> exists r fm, swap_full w a = Ok (wa, r)
     /\ get_fee_mode (c_collect_fee_mode (w_config w)) (sa_dir a) (is_some (sa_referral a)) = Ok fm
     /\ w_log wa = w_log w ++ swap_movements a (sr_included r) (sr_output r) (ftok fm) (sr_referral r)
     /\ referred a (sr_referral r) = sr_referral r).
  { clear - I. intros a wa H. pose proof (created_cfg_ok _ (iv_created _ I)) as K.
    pose proof (created_fees_ok _ (iv_created _ I)) as F.
    unfold exec in H. apply bind_ok in H. destruct H as (u & A & H). apply require_ok in A.
    simpl in A. repeat rewrite andb_true_iff in A. destruct A as (((A0 & A1) & _) & _).
    apply u64b_ok in A0, A1. destruct A0 as (A0 & _), A1 as (A1 & _).
    unfold do_swap in H. apply bind_ok in H. destruct H as ([w2 r] & S & H). apply Ok_inj in H.
    simpl in H. subst w2. pose proof S as S0. apply swap_full_effect in S; auto; [|apply (iv_price _ I)].
    destruct S as (fm & num & fee & gross & pf & cf & cur & p1 & E & E1 & E2).
    exists r, fm. split; [exact S0|]. split; [exact (se_fm _ _ _ _ _ _ _ _ _ _ _ E)|].
    split; [exact (log_movements _ _ _ _ _ _ _ _ _ _ _ E)|].
    pose proof (sf_parts _ _ _ _ _ _ _ _ (se_facts _ _ _ _ _ _ _ _ _ _ _ E)) as P.
    pose proof (se_fm _ _ _ _ _ _ _ _ _ _ _ E) as FM. unfold get_fee_mode in FM. apply bind_ok in FM.
    destruct FM as (cm & _ & FM). apply Ok_inj in FM.
    assert (RF : fm_referral fm = is_some (sa_referral a)) by (subst fm; destruct cm, (sa_dir a); reflexivity).
    rewrite RF in P. unfold referred. destruct (sa_referral a); [reflexivity|]. cbn [is_some] in P.
    unfold fee_parts in P. symmetry. apply P. }
  destruct (G _ _ EA) as (ra & fma & SA & FA & LA & XA). destruct (G _ _ EB) as (rb & fmb & SB & FB & LB & XB).
  destruct (swap_both _ _ _ _ _ _ _ SR SA SB) as (fi & fb & M1 & M2 & RL & PL).
  destruct SR as (D & _). rewrite D in FB. rewrite FA in M1. rewrite FB in M2. apply Ok_inj in M1, M2. subst fma fmb.
  exists (sr_included ra), (sr_output ra), (if fb then TBase else TQuote), (sr_referral ra), (sr_referral rb).
  split; [exact LA|]. rewrite <- (rl_included _ _ RL), <- (rl_output _ _ RL). split; [exact LB|].
  rewrite XA, XB. pose proof (rl_protocol _ _ RL) as RP.
  pose proof (like_rest _ _ _ PL) as E. destruct PL as [_ h1 h2 h3 h4]. unfold keep in *.
  rewrite E. cbn. split; [intros []; reflexivity|]. do 4 (split; [reflexivity|]).
  intros t. split; [destruct t; reflexivity|]. split; [destruct t; reflexivity|].
  rewrite h1, h2. unfold on, protocol_fees. destruct fb, t; cbn; lia.
Qed.

(** ** The limit *)
Definition with_limit (a : swap_args) (l : Z) : swap_args :=
  mkSwapArgs (sa_user a) (sa_referral a) (sa_dir a) (sa_mode a) (sa_amount0 a) l (sa_slot a) (sa_now a) (sa_view a).

(** A limit does nothing but refuse: with any other limit that the trade meets, the very same state
    follows; with a limit that it does not meet, the swap fails. *)
Theorem C73_limit_only_refuses : forall w a wa paid got ft x l, reachable w ->
  exec w (OSwap a) = Ok wa -> w_log wa = w_log w ++ swap_movements a paid got ft x ->
  0 <= l <= U64_MAX ->
  if (if sa_mode a =? 2 then paid <=? l else l <=? got)
  then exec w (OSwap (with_limit a l)) = Ok wa
  else exec w (OSwap (with_limit a l)) = Err EExceededSlippage.
Proof.
  intros w a wa paid got ft x l R H LG U. pose proof (reachable_inv _ R) as I.
  destruct (swap_eff _ _ _ I H) as (fm & r & num & fee & gross & pf & cf & cur & p1 & E & PRE & PS & _ & _).
  pose proof (log_movements _ _ _ _ _ _ _ _ _ _ _ E) as LM. rewrite LG in LM. apply movements_inj in LM.
  destruct LM as (-> & ->).
  pose proof (se_point _ _ _ _ _ _ _ _ _ _ _ E) as CP. pose proof (se_fm _ _ _ _ _ _ _ _ _ _ _ E) as FM. clear E.
  unfold exec in *. apply bind_ok in H. destruct H as (u & A & H). apply require_ok in A.
  assert (AO : args_ok (OSwap (with_limit a l)) = true).
  { cbn in A |- *. repeat rewrite andb_true_iff in *. destruct A as (((A0 & A1) & A2) & A3).
    repeat split; auto. unfold u64b. lia. }
  rewrite AO. cbn [require bind]. unfold do_swap in *. apply bind_ok in H. destruct H as ([w2 r'] & S & H).
  apply Ok_inj in H. cbn in H. subst w2. unfold swap_full in *. cbv zeta in *.
  cbn [with_limit sa_user sa_referral sa_dir sa_mode sa_amount0 sa_amount1 sa_slot sa_now sa_view].
  apply bind_ok in S. destruct S as (u1 & -> & S). cbn [bind]. rewrite CP in *. cbn [bind] in *.
  apply bind_ok in S. destruct S as (u2 & -> & S). cbn [bind].
  apply bind_ok in S. destruct S as (u3 & -> & S). cbn [bind].
  rewrite PRE in *. cbn [bind] in *. rewrite FM in *. cbn [bind] in *. rewrite PS in S. cbn [bind] in S.
  unfold process_swap in PS |- *.
  destruct (sa_mode a =? 0) eqn:M0.
  { replace (sa_mode a =? 2) with false by lia. apply bind_ok in PS. destruct PS as (r0 & P0 & PS). rewrite P0. cbn [bind].
    apply bind_ok in PS. destruct PS as (u4 & _ & PS). apply Ok_inj in PS. subst r0.
    destruct (l <=? sr_output r); [|reflexivity]. cbn [require bind].
    apply bind_ok in S. destruct S as (p2 & -> & S). cbn [bind].
    apply bind_ok in S. destruct S as (w1 & T & S).
    change (swap_transfers (set_w_pool w p2) (with_limit a l) fm r) with (swap_transfers (set_w_pool w p2) a fm r).
    rewrite T. cbn [bind]. apply bind_ok in S. destruct S as (w3 & -> & S). cbn [bind].
    apply Ok_inj, pair_inj in S. destruct S as (-> & _). reflexivity. }
  destruct (sa_mode a =? 1) eqn:M1.
  { replace (sa_mode a =? 2) with false by lia. apply bind_ok in PS. destruct PS as (r0 & P0 & PS). rewrite P0. cbn [bind].
    apply bind_ok in PS. destruct PS as (u4 & _ & PS). apply Ok_inj in PS. subst r0.
    destruct (l <=? sr_output r); [|reflexivity]. cbn [require bind].
    apply bind_ok in S. destruct S as (p2 & -> & S). cbn [bind].
    apply bind_ok in S. destruct S as (w1 & T & S).
    change (swap_transfers (set_w_pool w p2) (with_limit a l) fm r) with (swap_transfers (set_w_pool w p2) a fm r).
    rewrite T. cbn [bind]. apply bind_ok in S. destruct S as (w3 & -> & S). cbn [bind].
    apply Ok_inj, pair_inj in S. destruct S as (-> & _). reflexivity. }
  destruct (sa_mode a =? 2) eqn:M2; [|discriminate].
  apply bind_ok in PS. destruct PS as (r0 & P0 & PS). rewrite P0. cbn [bind].
  apply bind_ok in PS. destruct PS as (u4 & _ & PS). apply Ok_inj in PS. subst r0.
  destruct (sr_included r <=? l); [|reflexivity]. cbn [require bind].
  apply bind_ok in S. destruct S as (p2 & -> & S). cbn [bind].
  apply bind_ok in S. destruct S as (w1 & T & S).
  change (swap_transfers (set_w_pool w p2) (with_limit a l) fm r) with (swap_transfers (set_w_pool w p2) a fm r).
  rewrite T. cbn [bind]. apply bind_ok in S. destruct S as (w3 & -> & S). cbn [bind].
  apply Ok_inj, pair_inj in S. destruct S as (-> & _). reflexivity.
Qed.

(** ** Cases *)
Definition c73_a : swap_args := mkSwapArgs 503 None QuoteToBase 0 20000000000 0 1200 1700000100 plain_view.
Definition c73_b : swap_args := mkSwapArgs 504 (Some 600) QuoteToBase 0 20000000000 5 1200 1700000100 plain_view.

Lemma plain_not_entitled w a : sa_view a = plain_view -> ~ bundle_entitled w a.
Proof. intros V (_ & _ & _ & _ & _ & i & I & _). rewrite V in I. exact I. Qed.

(** A trader without and one with a referrer: the same trade; the referrer gets something. *)
Example C73_case : exists wa wb,
  reachable (run wA []) /\ same_request (run wA []) c73_a c73_b
  /\ exec (run wA []) (OSwap c73_a) = Ok wa /\ exec (run wA []) (OSwap c73_b) = Ok wb
  /\ 0 < p_protocol_quote (w_pool wb) < p_protocol_quote (w_pool wa).
Proof.
  eexists _, _. split; [apply reachA|].
  split.
  { do 5 (split; [reflexivity|]). split; intros H; exfalso; revert H; apply plain_not_entitled; reflexivity. }
  split; [vm_compute; reflexivity|]. split; [vm_compute; reflexivity|]. vm_compute. split; reflexivity.
Qed.

(** The same trade with a limit one above what it yields is refused. *)
Example C73_case_limit : exists wa paid got ft x,
  exec (run wA []) (OSwap c73_a) = Ok wa
  /\ w_log wa = w_log (run wA []) ++ swap_movements c73_a paid got ft x
  /\ exec (run wA []) (OSwap (with_limit c73_a got)) = Ok wa
  /\ exec (run wA []) (OSwap (with_limit c73_a (got + 1))) = Err EExceededSlippage.
Proof.
  eexists _, 20000000000, _, TQuote, 0. split; [vm_compute; reflexivity|].
  split; [vm_compute; reflexivity|]. split; vm_compute; reflexivity.
Qed.

Print Assumptions C73_equal_treatment.
Print Assumptions C73_limit_only_refuses.
