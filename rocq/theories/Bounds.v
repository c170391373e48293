(** * Balances stay within u64, and the arithmetic of a swap never raises a funding error. *)
From Coq Require Import ZArith QArith List Bool Lia ZifyBool Lqa.
From Verif Require Import Base MathModel CurveModel FeeModel ConfigModel PoolModel TxModel
  SystemModel Spec Lib CurveProofs CurveLoops Potential CalcProofs ConfigProofs FeeProofs
  SwapProofs InvProofs InvOps InvReach Effects Frame.
Import ListNotations.
Open Scope Z_scope.
#[local] Arguments Z.pow : simpl never.
#[local] Arguments Z.testbit : simpl never.
#[local] Arguments unless : simpl never.

(** ** Bounded balances *)
Record bounded (w : world) : Prop := {
  bd_base : w_bvault w <= U64_MAX;
  bd_quote : w_qvault w <= U64_MAX;
  bd_pquote : p_quote (w_pool w) <= U64_MAX
}.

Definition outgoing (x : transfer) : Prop := is_pool (t_to x) = false /\ 0 <= t_amount x.

Lemma outgoing_net t l : Forall outgoing l -> net t l <= 0.
Proof.
  induction 1 as [|x l (O & A) _ IH]; simpl; [lia|]. unfold flow. rewrite O.
  destruct (same_token _ _), (is_pool (t_from x)); lia.
Qed.

Lemma bounded_out w w' p l : bounded w -> eff w w' p l -> Forall outgoing l ->
  p_quote p = p_quote (w_pool w) -> bounded w'.
Proof.
  intros [B Q P] [] F E. pose proof (outgoing_net TBase l F). pose proof (outgoing_net TQuote l F).
  constructor; try lia. congruence.
Qed.

Ltac out := repeat (constructor; [split; [reflexivity|cbn [t_amount]; try lia]|]); try constructor.

Lemma burned_out b : 0 <= b -> Forall outgoing (burned b).
Proof. intros. unfold burned. destruct (0 <? b); out. Qed.

Lemma out_if t to x : is_pool to = false ->
  Forall outgoing (if 0 <? x then [mkTransfer t PPool to x] else []).
Proof. intros H. destruct (0 <? x) eqn:Z0; repeat constructor; auto. cbn [t_amount]. lia. Qed.
Lemma out_one t to x : is_pool to = false -> 0 <= x -> Forall outgoing [mkTransfer t PPool to x].
Proof. intros H Z0; repeat constructor; auto. Qed.

Lemma bounded_exec w o w' : Inv w -> bounded w -> exec w o = Ok w' -> bounded w'.
Proof.
  intros I B H. pose proof (exec_args _ _ _ H) as A. pose proof H as H0.
  pose proof (created_cfg_ok _ (iv_created _ I)) as K.
  pose proof (iv_nonneg _ I) as (N1 & N2 & N3 & N4 & N5 & N6 & N7 & N8 & N9 & N10).
  pose proof (mig_fee_parts _ K) as (M1 & M2 & M3 & _).
  destruct o; try (unfold exec in H; rewrite A in H; cbn [require bind] in H).
  - unfold do_swap in H.
    apply bind_ok in H. destruct H as ([w1 r] & S & H). apply Ok_inj in H. simpl in H. subst w1.
    pose proof S as S0. unfold swap_full in S0. cbv zeta in S0.
    apply bind_ok in S0. destruct S0 as (u0 & _ & S0).
    apply bind_ok in S0. destruct S0 as (cur & _ & S0).
    apply bind_ok in S0. destruct S0 as (u1 & _ & S0).
    apply bind_ok in S0. destruct S0 as (u2 & _ & S0).
    apply bind_ok in S0. destruct S0 as (p1 & PRE & S0).
    apply bind_ok in S0. destruct S0 as (fm & FM & S0).
    apply bind_ok in S0. destruct S0 as (r' & PS & S0).
    apply bind_ok in S0. destruct S0 as (p2 & AP & S0).
    apply bind_ok in S0. destruct S0 as (w1 & TR & S0).
    apply bind_ok in S0. destruct S0 as (w2 & FI & S0).
    apply Ok_inj in S0. apply pair_inj in S0. destruct S0 as (-> & ->).
    simpl in A. repeat rewrite andb_true_iff in A. destruct A as (((A & _) & _) & _).
    apply u64b_ok in A.
    destruct (swap_full_effect _ _ _ _ K (created_fees_ok _ (iv_created _ I)) (iv_price _ I)
       (proj1 A) S) as (fm' & num & fee & gross & pf & cf & cur' & p1' & SE & _ & _).
    assert (FE : w_bvault w' = w_bvault w1 /\ w_qvault w' = w_qvault w1
                 /\ p_quote (w_pool w') = p_quote (w_pool w1)).
    { unfold finish_curve in FI. cbv zeta in FI. destruct (is_curve_complete _ _).
      - apply bind_ok in FI. destruct FI as (f1 & _ & FI).
        apply bind_ok in FI. destruct FI as (f2 & _ & FI).
        apply bind_ok in FI. destruct FI as (f3 & _ & FI).
        apply bind_ok in FI. destruct FI as (f4 & _ & FI).
        apply bind_ok in FI. destruct FI as (f5 & _ & FI). apply Ok_inj in FI. subst w'. auto.
      - apply Ok_inj in FI. subst w'. auto. }
    destruct FE as (F1 & F2 & F3).
    pose proof (swap_transfers_ok _ _ _ _ _ TR) as (_ & _ & _ & PO & _). simpl in PO.
    assert (PQ : p_quote p2 <= U64_MAX).
    { destruct (se_pool _ _ _ _ _ _ _ _ _ _ _ SE) as (p2' & AP2 & _ & _ & CASE).
      assert (EQ : p_quote p2' = p_quote p2).
      { rewrite PO in F3. destruct CASE as [(_ & X)|(_ & _ & X)]; rewrite X in F3; simpl in F3; auto. }
      rewrite <- EQ. destruct (sa_dir a) eqn:D.
      - pose proof (ap_quote _ _ _ _ _ _ _ _ _ AP2) as Y. simpl in Y.
        pose proof (sf_gross _ _ _ _ _ _ _ _ (se_facts _ _ _ _ _ _ _ _ _ _ _ SE)).
        pose proof (bd_pquote _ B). lia.
      - apply (ap_quote_max _ _ _ _ _ _ _ _ _ AP2). reflexivity. }
    assert (SN : 0 <= sr_output r /\ 0 <= sr_referral r /\ 0 <= sr_included r).
    { pose proof (se_facts _ _ _ _ _ _ _ _ _ _ _ SE) as SF.
      pose proof (sf_parts _ _ _ _ _ _ _ _ SF) as PA.
      apply parts_sum in PA; [|apply (sf_fee_nonneg _ _ _ _ _ _ _ _ SF)].
      destruct PA as (_ & _ & _ & R0 & _).
      pose proof (sf_out_nonneg _ _ _ _ _ _ _ _ SF). pose proof (sf_in _ _ _ _ _ _ _ _ SF).
      pose proof (sf_excl _ _ _ _ _ _ _ _ SF). pose proof (sf_fee_nonneg _ _ _ _ _ _ _ _ SF).
      destruct (fm_on_input fm'); lia. }
    destruct B as [B Q P]. 
    assert (VB : w_bvault w1 <= U64_MAX /\ w_qvault w1 <= U64_MAX).
    { clear - TR B Q SN. destruct SN as (S1 & S2 & S3). unfold swap_transfers in TR.
      apply bind_ok in TR. destruct TR as (w0 & T0 & TR).
      assert (V0 : w_bvault w0 <= U64_MAX /\ w_qvault w0 <= U64_MAX).
      { destruct (sa_dir a); apply bind_ok in T0; destruct T0 as (w3 & T1 & T2);
        unfold recv_base, recv_quote, pay_base, pay_quote, log in *; minv; simpl in *; lia. }
      unfold pay_base, pay_quote, log in TR.
      destruct (sa_referral a); [destruct (fm_on_base fm)|]; minv; simpl in *; lia. }
    constructor; try lia. rewrite F3, PO. exact PQ.
  - simpl in A. apply andb_true_iff in A. destruct A as (A1 & A2). apply u64b_ok in A1, A2.
    apply partner_eff in H. destruct H as (_ & E & _).
    eapply bounded_out; eauto. destruct A1, A2. clear - N1 N2 H H2. out.
  - simpl in A. apply andb_true_iff in A. destruct A as (A1 & A2). apply u64b_ok in A1, A2.
    apply creator_eff in H. destruct H as (_ & E & _).
    eapply bounded_out; eauto. destruct A1, A2. clear - N3 N4 H H2. out.
  - simpl in A. apply andb_true_iff in A. destruct A as (A1 & A2). apply u64b_ok in A1, A2.
    apply (protocol_eff _ _ _ _ _ I (proj1 A1) (proj1 A2)) in H.
    destruct H as (_ & p' & E & R' & a1 & b1 & a2 & b2 & _ & _ & _ & _ & _ & _ & P').
    eapply bounded_out; eauto.
    + apply Forall_app. split; apply out_if; reflexivity.
    + rewrite P'. cbv zeta. destruct (_ && _); reflexivity.
  - simpl in A. apply u64b_ok in A. apply (zap_eff _ _ _ _ _ _ _ I (proj1 A)) in H.
    destruct H as (_ & _ & _ & p' & E & R' & Z0 & a1 & b1 & _ & _ & _ & P').
    eapply bounded_out; eauto.
    + destruct base; (apply out_one; [reflexivity|apply Z.lt_le_incl; exact Z0]).
    + rewrite P'. cbv zeta. destruct base; [|destruct (_ && _)]; reflexivity.
  - apply partner_surplus_eff in H; auto. destruct H as (_ & T & _ & E & _).
    pose proof (surplus_parts _ _ K T) as (S1 & S2 & S3 & _). eapply bounded_out; eauto. clear - S1. out.
  - apply creator_surplus_eff in H; auto. destruct H as (_ & T & _ & E & _).
    pose proof (surplus_parts _ _ K T) as (S1 & S2 & S3 & _). eapply bounded_out; eauto. clear - S2. out.
  - apply migration_fee_eff in H; auto.
    destruct H as (_ & _ & [(_ & _ & _ & E)|(_ & _ & _ & E)]);
    eapply bounded_out; eauto; [clear - M2|clear - M3]; out.
  - apply leftover_eff in H; auto. destruct H as (P3 & _ & _ & E & _).
    pose proof (iv_base _ I) as BO. unfold base_owed in BO. rewrite P3 in BO. simpl in BO.
    eapply bounded_out; eauto. clear - BO. out.
  - apply partner_cf_eff in H; auto. destruct H as (_ & A0 & _ & E & _).
    eapply bounded_out; eauto. clear - A0. out.
  - apply protocol_cf_eff in H; auto. destruct H as (_ & E & _).
    eapply bounded_out; eauto; [apply out_if; reflexivity|destruct (negb _); reflexivity].
  - apply transfer_creator_eff in H. destruct H as (_ & _ & _ & _ & E & _).
    eapply bounded_out; eauto. 
  - apply locker_eff in H. destruct H as (P1 & E & _).
    destruct (ok_vest _ K) as (t & T & T0 & _). apply lv_total_eq in T. subst t.
    eapply bounded_out; eauto. clear - T0. out.
  - apply metadata_eff in H. destruct H as (_ & _ & E & _). eapply bounded_out; eauto. 
  - apply migrate_v1_eff in H.
    destruct H as (m & m' & fb & fq & eb & eq & b & mb & _ & P2 & O & _ & SP & E & _ & BB & _).
    destruct (split_ok _ _ _ _ _ _ I SP) as (ib & iq & E1 & E2 & F1 & F2 & _).
    eapply bounded_out; eauto. apply Forall_app. split; [clear - E1 E2 F1 F2; out|].
    apply burned_out. clear - BB. lia.
  - apply migrate_v2_eff in H.
    destruct H as (fb & fq & eb & eq & l2 & b & mb & h & _ & P2 & O & SP & L2 & X1 & X2 & E & _ & BB & _).
    eapply bounded_out; eauto. apply Forall_app. split; [clear - X1 X2; out|].
    apply Forall_app. split; [|apply burned_out; clear - BB; lia].
    destruct L2 as [->|(-> & Y1 & Y2 & _)]; [constructor|clear - Y1 Y2; out].
  - apply lock_lp_eff in H.
    destruct H as (m & m' & a & _ & _ & _ & _ & _ & _ & _ & _ & E & _).
    destruct B, E. constructor; try congruence;
    [rewrite ef_base|rewrite ef_quote]; simpl; unfold flow; simpl; lia.
  - apply claim_lp_eff in H.
    destruct H as (m & m' & a & _ & _ & _ & _ & _ & _ & _ & _ & E & _).
    destruct B, E. constructor; try congruence;
    [rewrite ef_base|rewrite ef_quote]; simpl; unfold flow; simpl; lia.
  - unfold create_operator in H. minv. destruct B; constructor; auto.
  - unfold close_operator in H. minv. destruct B; constructor; auto.
  - unfold recv_base, log in H. minv. destruct B; constructor; simpl; auto; lia.
  - unfold recv_quote, log in H. minv. destruct B; constructor; simpl; auto; lia.
  - apply Ok_inj in H. subst w'. destruct B; constructor; auto.
  - minv. destruct B; constructor; auto.
  - minv. destruct B; constructor; auto.
Qed.

Lemma bounded_initial w : initial w -> bounded w.
Proof.
  intros I0. assert (I : Inv w). { apply reachable_inv. exists w, []. auto. }
  destruct I0 as (c & key & creator & payer & tt & slot & time & ad & op & C & _ & _ & H).
  pose proof (created_cfg_ok _ C) as K.
  unfold initialize_pool in H.
  apply bind_ok in H. destruct H as (x1 & _ & H). apply bind_ok in H. destruct H as (x2 & _ & H).
  apply bind_ok in H. destruct H as (x3 & _ & H). apply bind_ok in H. destruct H as (s & S & H).
  apply bind_ok in H. destruct H as (x5 & _ & H). apply bind_ok in H. destruct H as (x6 & _ & H).
  apply bind_ok in H. destruct H as (x7 & _ & H). apply bind_ok in H. destruct H as (x8 & _ & H).
  apply Ok_inj in H. subst w. destruct (ok_supply _ K s S) as (t & _ & L).
  constructor; simpl; [lia| |]; discriminate.
Qed.

Lemma reachable_bounded w : reachable w -> bounded w.
Proof.
  intros (w0 & ops & I0 & ->). pose proof (bounded_initial _ I0) as B.
  assert (R : reachable w0) by (exists w0, []; auto). clear I0. revert w0 B R.
  induction ops as [|o ops IH]; intros w0 B R; [exact B|].
  change (run w0 (o :: ops)) with (run (step w0 o) ops).
  apply IH; [|apply (reachable_run w0 [o]); auto].
  unfold step. destruct (exec w0 o) eqn:E; auto. eapply bounded_exec; eauto. apply reachable_inv; auto.
Qed.

(** ** Computations that never raise the two funding errors *)
Definition plain_err (e : err) : bool :=
  match e with EInsufficientLiquidityForMigration | ETokenInsufficientFunds => false | _ => true end.
Definition safe {A} (r : res A) : Prop := forall e, r = Err e -> plain_err e = true.

Lemma safe_ok {A} (a : A) : safe (Ok a). Proof. intros e H. discriminate. Qed.
Lemma safe_err {A} e : plain_err e = true -> safe (@Err A e).
Proof. intros H e' E. inversion E. subst. auto. Qed.
Lemma safe_require b e : plain_err e = true -> safe (require b e).
Proof. intros H. unfold require. destruct b; [apply safe_ok|apply safe_err; auto]. Qed.
Lemma safe_bind {A B} (r : res A) (f : A -> res B) :
  safe r -> (forall x, r = Ok x -> safe (f x)) -> safe (bind r f).
Proof. intros H G. destruct r; simpl; auto. intros e' E. apply H. inversion E. auto. Qed.
Lemma safe_ok_or {A} (o : option A) e : plain_err e = true -> safe (ok_or o e).
Proof. intros H. unfold ok_or. destruct o; [apply safe_ok|apply safe_err; auto]. Qed.

Ltac head t := lazymatch t with ?f _ => head f | _ => t end.
Create HintDb safedb.
Ltac safe1 :=
  first
  [ apply safe_ok | apply safe_err; reflexivity | apply safe_require; reflexivity
  | apply safe_ok_or; reflexivity
  | solve [auto with safedb]
  | apply safe_bind; [|intros ? _]
  | match goal with
    | |- safe (match ?x with _ => _ end) => destruct x
    | |- safe (let _ := _ in _) => cbv zeta
    | |- safe ?t => let h := head t in unfold h
    end ].
Ltac safe := repeat safe1.

Lemma safe_mdc m x y d r : safe (safe_mul_div_cast_u64 m x y d r). Proof. safe. Qed.
#[export] Hint Resolve safe_mdc : safedb.
Lemma safe_delta_base a b c r : safe (delta_base a b c r). Proof. safe. Qed.
Lemma safe_delta_quote a b c r : safe (delta_quote a b c r). Proof. safe. Qed.
Lemma safe_npi a b c d : safe (next_price_from_input a b c d). Proof. safe. Qed.
Lemma safe_npo a b c d : safe (next_price_from_output a b c d). Proof. safe. Qed.
Lemma safe_gef a b : safe (get_excluded_fee_amount a b). Proof. safe. Qed.
Lemma safe_gif a b : safe (get_included_fee_amount a b). Proof. safe. Qed.
#[export] Hint Resolve safe_delta_base safe_delta_quote safe_npi safe_npo safe_gef safe_gif : safedb.
Lemma safe_buy_in stop l : forall cur a o, safe (buy_in_loop stop l cur a o).
Proof. induction l as [|[p q] l IH]; intros; simpl; safe. Qed.
Lemma safe_buy_out l : forall cur a o, safe (buy_out_loop l cur a o).
Proof. induction l as [|[p q] l IH]; intros; simpl; safe. Qed.
Lemma safe_sell_in l : forall cur a o, safe (sell_in_loop l cur a o).
Proof. induction l as [|[[p q] q'] l IH]; intros; simpl; safe. Qed.
Lemma safe_sell_out l : forall cur a o, safe (sell_out_loop l cur a o).
Proof. induction l as [|[[p q] q'] l IH]; intros; simpl; safe. Qed.
#[export] Hint Resolve safe_buy_in safe_buy_out safe_sell_in safe_sell_out : safedb.
Lemma safe_rl_inc b i : safe (rl_num_included b i). Proof. safe. Qed.
#[export] Hint Resolve safe_rl_inc : safedb.
Lemma safe_rl_exc b i : safe (rl_num_excluded b i).
Proof. safe. Qed.
#[export] Hint Resolve safe_rl_exc : safedb.
Lemma safe_inc c p cur a d e : safe (num_included c p cur a d e). Proof. safe. Qed.
Lemma safe_exc c p cur a d e : safe (num_excluded c p cur a d e). Proof. safe. Qed.
Lemma safe_foa a b c : safe (get_fee_on_amount a b c). Proof. safe. Qed.
Lemma safe_fi c p d a : safe (fi_of_direction c p d a). Proof. safe. Qed.
Lemma safe_fo c p d a : safe (fo_of_direction c p d a). Proof. safe. Qed.
Lemma safe_split a b : safe (split_fees a b). Proof. safe. Qed.
#[export] Hint Resolve safe_inc safe_exc safe_foa safe_fi safe_fo safe_split : safedb.
Lemma safe_process c p m a0 a1 fm d cur e : safe (process_swap c p m a0 a1 fm d cur e).
Proof. safe. Qed.
Lemma safe_apply c p r fm d now : safe (apply_swap_result c p r fm d now).
Proof. safe. Qed.
Lemma safe_siblings l k : safe (check_siblings l k).
Proof. induction l; simpl; safe. Qed.
Lemma safe_before l k : safe (check_before l k).
Proof. induction l; simpl; safe. Qed.
#[export] Hint Resolve safe_siblings safe_before : safedb.
Lemma safe_rate c p k cur d v : safe (rate_limit_check c p k cur d v). Proof. safe. Qed.
Lemma safe_pre c p now : safe (update_pre_swap c p now). Proof. safe. Qed.
Lemma safe_fm a b c : safe (get_fee_mode a b c). Proof. safe. Qed.
Lemma safe_point c a b : safe (current_point c a b). Proof. safe. Qed.
#[export] Hint Resolve safe_process safe_apply safe_rate safe_pre safe_fm safe_point : safedb.
