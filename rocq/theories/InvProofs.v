(** * The invariant of a pool over any history of instructions. *)
From Coq Require Import ZArith QArith List Bool Lia ZifyBool Lqa.
From Verif Require Import Base MathModel CurveModel FeeModel ConfigModel PoolModel TxModel
  SystemModel Spec Lib CurveProofs CurveLoops Potential CalcProofs ConfigProofs FeeProofs
  SwapProofs.
Import ListNotations.
Open Scope Z_scope.
#[local] Arguments Z.pow : simpl never.
#[local] Arguments Z.testbit : simpl never.
#[local] Arguments unless : simpl never.

Record Inv (w : world) : Prop := {
  iv_created : created (w_config w);
  iv_price : c_start (w_config w) <= p_price (w_pool w) <= c_mig_price (w_config w);
  iv_progress : 0 <= p_progress (w_pool w) <= 3;
  iv_complete : p_progress (w_pool w) = 0 <-> p_quote (w_pool w) < c_threshold (w_config w);
  iv_area : quote_area_ceil (c_start (w_config w)) (curve_points (w_config w)) (p_price (w_pool w))
            <= p_quote (w_pool w);
  iv_supply : exists s, get_initial_base_supply (w_config w) = Ok s
     /\ (inject_Z (s - p_base (w_pool w))
         <= base_area (c_start (w_config w)) (curve_points (w_config w)) (p_price (w_pool w)))%Q;
  iv_nonneg : 0 <= p_partner_base (w_pool w) /\ 0 <= p_partner_quote (w_pool w)
     /\ 0 <= p_creator_base (w_pool w) /\ 0 <= p_creator_quote (w_pool w)
     /\ 0 <= p_protocol_base (w_pool w) /\ 0 <= p_protocol_quote (w_pool w)
     /\ 0 <= p_mig_base_fee (w_pool w) /\ 0 <= p_mig_quote_fee (w_pool w)
     /\ 0 <= p_base (w_pool w) /\ 0 <= p_quote (w_pool w);
  iv_quote : quote_owed w <= w_qvault w;
  iv_base : base_owed w <= w_bvault w;
  iv_lamports : lamports_owed w <= w_lamports w;
  iv_lp : lp_owed w <= w_lp w;
  iv_flags : (p_partner_surplus (w_pool w) = 0 \/ p_partner_surplus (w_pool w) = 1)
     /\ (p_creator_surplus (w_pool w) = 0 \/ p_creator_surplus (w_pool w) = 1)
     /\ (p_protocol_surplus (w_pool w) = 0 \/ p_protocol_surplus (w_pool w) = 1)
     /\ (p_leftover (w_pool w) = 0 \/ p_leftover (w_pool w) = 1);
  iv_status : p_mig_fee_status (w_pool w) = 0 \/ p_mig_fee_status (w_pool w) = 2
     \/ p_mig_fee_status (w_pool w) = 4 \/ p_mig_fee_status (w_pool w) = 6;
  iv_cbits : p_creation_bits (w_pool w) = 0 \/ p_creation_bits (w_pool w) = 1
     \/ p_creation_bits (w_pool w) = 2 \/ p_creation_bits (w_pool w) = 3;
  iv_legacy : p_legacy_bits (w_pool w) = 0;
  iv_open : p_progress (w_pool w) = 0 ->
     p_partner_surplus (w_pool w) = 0 /\ p_creator_surplus (w_pool w) = 0
     /\ p_protocol_surplus (w_pool w) = 0 /\ p_mig_fee_status (w_pool w) = 0;
  iv_premig : p_progress (w_pool w) <> 3 ->
     p_mig_base_fee (w_pool w) = 0 /\ p_mig_quote_fee (w_pool w) = 0
     /\ p_leftover (w_pool w) = 0 /\ p_is_migrated (w_pool w) = 0;
  iv_mig : p_progress (w_pool w) = 3 -> p_is_migrated (w_pool w) = 1;
  iv_mbps : p_mig_fee_bps (w_pool w) = PROTOCOL_LIQUIDITY_MIGRATION_FEE_BPS;
  iv_meta : match w_meta w with
    | None => True
    | Some m => 0 <= m_partner_locked m /\ 0 <= m_creator_locked m
       /\ 0 <= m_partner_liq m /\ 0 <= m_creator_liq m
       /\ (m_partner_lock_done m = 0 \/ m_partner_lock_done m = 1)
       /\ (m_creator_lock_done m = 0 \/ m_creator_lock_done m = 1)
       /\ (m_partner_claim_done m = 0 \/ m_partner_claim_done m = 1)
       /\ (m_creator_claim_done m = 0 \/ m_creator_claim_done m = 1)
       /\ (p_progress (w_pool w) <> 3 ->
             m_partner_lock_done m = 0 /\ m_creator_lock_done m = 0
             /\ m_partner_claim_done m = 0 /\ m_creator_claim_done m = 0)
    end
}.

(** ** Amount functions agree with the specification *)
Lemma mig_fee_total_eq c : 
  0 <= c_migration_fee_pct c <= 99 -> 
  c_threshold c - cdiv (c_threshold c * (100 - c_migration_fee_pct c)) 100 = migration_fee_total c.
Proof.
  intros H. unfold migration_fee_total.
  set (t := c_threshold c). set (k := c_migration_fee_pct c) in *.
  assert (A : t - t * k / 100 <= cdiv (t * (100 - k)) 100).
  { assert (t - t * k / 100 - 1 < cdiv (t * (100 - k)) 100); [|lia].
    apply cdiv_gt; [lia|]. pose proof (Z.mod_pos_bound (t * k) 100).
    pose proof (Z.div_mod (t * k) 100). lia. }
  assert (B : cdiv (t * (100 - k)) 100 <= t - t * k / 100).
  { apply cdiv_le; [lia|]. pose proof (div_lb (t * k) 100). lia. }
  lia.
Qed.

Lemma mig_quote_eq c q f :
  cfg_ok c -> get_migration_quote_amount (c_threshold c) (c_migration_fee_pct c) = Ok (q, f) ->
  q = c_threshold c - migration_fee_total c /\ f = migration_fee_total c /\ 0 < q
  /\ 0 <= migration_fee_total c.
Proof.
  intros K H. destruct (migration_quote_ok (c_threshold c) (c_migration_fee_pct c)
    (ok_threshold _ K) (ok_mfp _ K)) as (q' & f' & E & Q1 & Q2 & Q3 & Q4).
  rewrite E in H. apply Ok_inj in H. apply pair_inj in H. destruct H as (<- & <-).
  rewrite <- (mig_fee_total_eq c) by (apply ok_mfp; auto). lia.
Qed.

Lemma mig_fee_parts c : cfg_ok c ->
  0 <= migration_fee_total c /\ 0 <= migration_fee_partner c /\ 0 <= migration_fee_creator c
  /\ migration_fee_partner c + migration_fee_creator c = migration_fee_total c
  /\ migration_fee_total c < c_threshold c.
Proof.
  intros K. pose proof (ok_mfp _ K). pose proof (ok_cmfp _ K). pose proof (ok_threshold _ K).
  assert (0 <= migration_fee_total c) by (apply div_nonneg; nia).
  assert (migration_fee_total c < c_threshold c).
  { unfold migration_fee_total. apply div_lt; nia. }
  unfold migration_fee_partner, migration_fee_creator.
  set (t := migration_fee_total c) in *.
  assert (0 <= t * c_creator_migration_fee_pct c / 100) by (apply div_nonneg; nia).
  assert (t * c_creator_migration_fee_pct c / 100 <= t) by (apply Z.div_le_upper_bound; nia).
  lia.
Qed.

Lemma mig_fee_dist_eq c a b :
  cfg_ok c -> get_migration_fee_distribution c = Ok (a, b) ->
  a = migration_fee_partner c /\ b = migration_fee_creator c.
Proof.
  intros K H. unfold get_migration_fee_distribution in H.
  apply bind_ok in H. destruct H as ([q f] & QF & H). cbv zeta in H.
  apply mig_quote_eq in QF; auto. destruct QF as (_ & -> & _ & _). simpl snd in H.
  apply bind_ok in H. destruct H as (cr & C & H). apply mul_div_cast_down in C.
  destruct C as (-> & _). apply bind_ok in H. destruct H as (pa & P & H).
  apply ssub_ok in P. destruct P as (-> & _).
  apply Ok_inj in H. apply pair_inj in H. destruct H as (<- & <-). split; reflexivity.
Qed.

Lemma surplus_parts c q : cfg_ok c -> c_threshold c <= q ->
  0 <= surplus_partner c q /\ 0 <= surplus_creator c q /\ 0 <= surplus_protocol c q
  /\ surplus_partner c q + surplus_creator c q + surplus_protocol c q = surplus_total c q.
Proof.
  intros K H. pose proof (ok_ctf _ K).
  unfold surplus_partner, surplus_creator, surplus_protocol, surplus_shared.
  assert (0 <= surplus_total c q) by (unfold surplus_total; lia).
  set (s := surplus_total c q) in *.
  assert (0 <= s * 80 / 100) by (apply div_nonneg; lia).
  assert (s * 80 / 100 <= s) by (apply Z.div_le_upper_bound; lia).
  set (h := s * 80 / 100) in *. clearbody h.
  assert (0 <= h * c_creator_trading_fee_pct c / 100) by (apply div_nonneg; nia).
  assert (h * c_creator_trading_fee_pct c / 100 <= h) by (apply Z.div_le_upper_bound; nia).
  lia.
Qed.

Lemma shared_eq t s : get_partner_and_creator_surplus t = Ok s -> s = t * 80 / 100.
Proof. unfold get_partner_and_creator_surplus. intros H. apply mul_div_cast_down in H. tauto. Qed.

Lemma pc_surplus_eq p c t s pf cf :
  cfg_ok c -> c_threshold c <= p_quote p ->
  get_total_surplus p (c_threshold c) = Ok t -> get_partner_and_creator_surplus t = Ok s ->
  split_partner_and_creator_fee c s = Ok (pf, cf) ->
  pf = surplus_partner c (p_quote p) /\ cf = surplus_creator c (p_quote p).
Proof.
  intros K C T S H. unfold get_total_surplus in T. apply ssub_ok in T. destruct T as (-> & _).
  apply shared_eq in S. subst s.
  apply split_pc_ok in H; [|apply div_nonneg; lia|apply ok_ctf; auto].
  destruct H as (-> & H & _). unfold surplus_partner, surplus_creator, surplus_shared, surplus_total.
  lia.
Qed.

Lemma partner_surplus_eq p c a :
  cfg_ok c -> c_threshold c <= p_quote p -> get_partner_surplus p c (c_threshold c) = Ok a ->
  a = surplus_partner c (p_quote p).
Proof.
  intros K C H. unfold get_partner_surplus in H.
  apply bind_ok in H. destruct H as (t & T & H). apply bind_ok in H. destruct H as (s & S & H).
  apply bind_ok in H. destruct H as ([pf cf] & P & H). apply Ok_inj in H.
  destruct (pc_surplus_eq _ _ _ _ _ _ K C T S P). simpl in H. lia.
Qed.

Lemma creator_surplus_eq p c a :
  cfg_ok c -> c_threshold c <= p_quote p -> get_creator_surplus p c (c_threshold c) = Ok a ->
  a = surplus_creator c (p_quote p).
Proof.
  intros K C H. unfold get_creator_surplus in H.
  apply bind_ok in H. destruct H as (t & T & H). apply bind_ok in H. destruct H as (s & S & H).
  apply bind_ok in H. destruct H as ([pf cf] & P & H). apply Ok_inj in H.
  destruct (pc_surplus_eq _ _ _ _ _ _ K C T S P). simpl in H. lia.
Qed.

Lemma protocol_surplus_eq p c a :
  get_protocol_surplus p (c_threshold c) = Ok a -> a = surplus_protocol c (p_quote p).
Proof.
  intros H. unfold get_protocol_surplus in H.
  apply bind_ok in H. destruct H as (t & T & H). apply bind_ok in H. destruct H as (s & S & H).
  unfold get_total_surplus in T. apply ssub_ok in T, H. destruct T as (-> & _), H as (-> & _).
  apply shared_eq in S. subst s.
  unfold surplus_protocol, surplus_shared, surplus_total. lia.
Qed.

Lemma lv_total_eq c t : lv_total (c_vesting c) = Ok t -> t = vesting_total c.
Proof. unfold lv_total, vesting_total. intros H. minv. lia. Qed.

Lemma fees_sum_eq p f : get_protocol_and_trading_base_fee p = Ok f ->
  f = p_partner_base p + p_protocol_base p + p_creator_base p.
Proof. unfold get_protocol_and_trading_base_fee. intros H. minv. lia. Qed.

Lemma creation_split_eq c a b : split_pool_creation_fee c = Ok (a, b) ->
  a = creation_fee_protocol c /\ b = c_pool_creation_fee c - creation_fee_protocol c.
Proof.
  unfold split_pool_creation_fee, creation_fee_protocol. intros H.
  apply bind_ok in H. destruct H as (x & X & H). apply mul_div_cast_down in X.
  destruct X as (-> & _). apply bind_ok in H. destruct H as (y & Y & H).
  apply ssub_ok in Y. destruct Y as (-> & _).
  apply Ok_inj in H. apply pair_inj in H. destruct H as (<- & <-). split; reflexivity.
Qed.

Lemma initial_inv w : initial w -> Inv w.
Proof.
  intros (c & key & creator & payer & tt & slot & time & adm & ops & C & _ & _ & H).
  pose proof (created_cfg_ok _ C) as K.
  unfold initialize_pool in H. minv.
  assert (S : 0 <= v2).
  { pose proof (ok_swap _ K). pose proof (ok_base _ K).
    match goal with X : get_initial_base_supply c = Ok _ |- _ =>
      destruct (ok_supply _ K _ X) as (t & T & T2) end.
    destruct (ok_vest _ K) as (t' & T' & T3 & _). rewrite T in T'. minv. lia. }
  pose proof (ok_pcf _ K). pose proof (ok_threshold _ K).
  pose proof (co_mig_lo _ _ (ok_curve _ K)). pose proof (co_wf _ _ (ok_curve _ K)).
  constructor; unfold quote_owed, base_owed, lamports_owed, lp_owed, unless, creation_fee_protocol;
    simpl; auto; try lia.
  - rewrite quote_ceil_below; auto; lia.
  - exists v2. split; auto. rewrite Z.sub_diag, base_area_below; auto; try lia. apply Qle_refl.
Qed.

Ltac ivd I := destruct I as [iv1 iv2 iv3 iv4 iv5 iv6 iv7 iv8 iv9 iv10 iv11 iv12 iv13 iv14 iv15
  iv16 iv17 iv18 iv19 iv20].
Ltac unf := unfold quote_owed, base_owed, lamports_owed, lp_owed, pay_base, pay_quote, pay_lamports, burn_base,
  pay_lp, log in *.

(** Facts that only use the counters of claims. *)
Lemma inv_partner w s t b q w' : Inv w -> 0 <= b -> 0 <= q ->
  claim_partner_fee w s t b q = Ok w' -> Inv w'.
Proof.
  intros I Hb Hq H. unfold claim_partner_fee, claim_partner_trading_fee in H.
  apply bind_ok in H. destruct H as (u & _ & H).
  apply bind_ok in H. destruct H as ([[p x] y] & R & H). minv. inversion R; subst; clear R.
  ivd I. unf. minv. constructor; unf; simpl in *; auto; try lia.
Qed.

Lemma inv_creator w s t b q w' : Inv w -> 0 <= b -> 0 <= q ->
  claim_creator_fee w s t b q = Ok w' -> Inv w'.
Proof.
  intros I Hb Hq H. unfold claim_creator_fee, claim_creator_trading_fee in H.
  apply bind_ok in H. destruct H as (u & _ & H).
  apply bind_ok in H. destruct H as ([[p x] y] & R & H). minv. inversion R; subst; clear R.
  ivd I. unf. minv. constructor; unf; simpl in *; auto; try lia.
Qed.

Lemma claim_base_ok p m p' t : 0 <= m -> 0 <= p_protocol_base p -> 0 <= p_mig_base_fee p ->
  claim_protocol_base_fee p m = Ok (p', t) ->
  exists a b, 0 <= a <= p_protocol_base p /\ 0 <= b <= p_mig_base_fee p /\ t = a + b
   /\ t = Z.min m (p_protocol_base p + p_mig_base_fee p)
   /\ p' = set_mig_base_fee (set_protocol_base p (p_protocol_base p - a)) (p_mig_base_fee p - b).
Proof.
  intros Hm H1 H2 H. unfold claim_protocol_base_fee in H. cbv zeta in H. minv.
  inversion H; subst; clear H. simpl.
  exists (Z.min (p_protocol_base p) m), (Z.min (p_mig_base_fee p) (m - Z.min (p_protocol_base p) m)).
  repeat split; lia.
Qed.

Lemma claim_quote_ok p m p' t : 0 <= m -> 0 <= p_protocol_quote p -> 0 <= p_mig_quote_fee p ->
  claim_protocol_quote_fee p m = Ok (p', t) ->
  exists a b, 0 <= a <= p_protocol_quote p /\ 0 <= b <= p_mig_quote_fee p /\ t = a + b
   /\ t = Z.min m (p_protocol_quote p + p_mig_quote_fee p)
   /\ p' = set_mig_quote_fee (set_protocol_quote p (p_protocol_quote p - a)) (p_mig_quote_fee p - b).
Proof.
  intros Hm H1 H2 H. unfold claim_protocol_quote_fee in H. cbv zeta in H. minv.
  inversion H; subst; clear H. simpl.
  exists (Z.min (p_protocol_quote p) m), (Z.min (p_mig_quote_fee p) (m - Z.min (p_protocol_quote p) m)).
  repeat split; lia.
Qed.

Lemma claim_quote_surplus_ok p c m p' t :
  0 <= m -> 0 <= p_protocol_quote p -> 0 <= p_mig_quote_fee p ->
  claim_protocol_quote_fee_and_surplus p c m = Ok (p', t) ->
  exists a b s, 0 <= a <= p_protocol_quote p /\ 0 <= b <= p_mig_quote_fee p /\ t = a + b + s
   /\ a + b = Z.min m (p_protocol_quote p + p_mig_quote_fee p)
   /\ ((p_protocol_surplus p = 0 /\ c_threshold c <= p_quote p /\ s = surplus_protocol c (p_quote p)
        /\ p' = set_protocol_surplus (set_mig_quote_fee (set_protocol_quote p
                  (p_protocol_quote p - a)) (p_mig_quote_fee p - b)) 1)
       \/ ((p_protocol_surplus p <> 0 \/ p_quote p < c_threshold c) /\ s = 0
           /\ p' = set_mig_quote_fee (set_protocol_quote p (p_protocol_quote p - a))
                     (p_mig_quote_fee p - b))).
Proof.
  intros Hm H1 H2 H. unfold claim_protocol_quote_fee_and_surplus in H.
  apply bind_ok in H. destruct H as ([p1 x] & Q & H).
  apply claim_quote_ok in Q; auto. destruct Q as (a & b & A & B & -> & T & ->).
  destruct ((p_protocol_surplus (set_mig_quote_fee (set_protocol_quote p (p_protocol_quote p - a))
      (p_mig_quote_fee p - b)) =? 0) && is_curve_complete (set_mig_quote_fee (set_protocol_quote p
      (p_protocol_quote p - a)) (p_mig_quote_fee p - b)) (c_threshold c)) eqn:C;
  unfold is_curve_complete in C; simpl in C.
  - apply bind_ok in H. destruct H as (s & S & H). apply protocol_surplus_eq in S.
    apply bind_ok in H. destruct H as (t' & T' & H). apply sadd_ok in T'.
    apply Ok_inj in H. apply pair_inj in H. destruct H as (<- & <-).
    exists a, b, s. split; [lia|]. split; [lia|]. split; [lia|]. split; [lia|]. left.
    split; [lia|]. split; [lia|]. split; [rewrite S; reflexivity|reflexivity].
  - apply Ok_inj in H. apply pair_inj in H. destruct H as (<- & <-).
    exists a, b, 0. split; [lia|]. split; [lia|]. split; [lia|]. split; [lia|]. right.
    split; [lia|]. split; reflexivity.
Qed.

Definition after_base_claim (w : world) (a b : Z) (l : list transfer) : world :=
  set_w_log (set_w_bvault (set_w_pool w
    (set_mig_base_fee (set_protocol_base (w_pool w) (p_protocol_base (w_pool w) - a))
       (p_mig_base_fee (w_pool w) - b))) (w_bvault w - (a + b))) l.

Lemma inv_base_claim w a b l :
  Inv w -> 0 <= a <= p_protocol_base (w_pool w) -> 0 <= b <= p_mig_base_fee (w_pool w) ->
  Inv (after_base_claim w a b l).
Proof.
  intros I A B. ivd I. unfold after_base_claim. constructor; unf; simpl in *; auto; try lia.
  destruct (p_progress (w_pool w) =? 0) eqn:P0; [lia|].
  destruct (p_progress (w_pool w) =? 1) eqn:P1; [lia|].
  destruct (p_progress (w_pool w) =? 2) eqn:P2; lia.
Qed.

Lemma inv_log w l : Inv w -> Inv (set_w_log w l).
Proof. intros I. ivd I. constructor; unf; simpl in *; auto. Qed.

Lemma inv_quote_claim w a b s l p' :
  Inv w -> 0 <= a <= p_protocol_quote (w_pool w) -> 0 <= b <= p_mig_quote_fee (w_pool w) ->
  ((p_protocol_surplus (w_pool w) = 0 /\ c_threshold (w_config w) <= p_quote (w_pool w)
        /\ s = surplus_protocol (w_config w) (p_quote (w_pool w))
        /\ p' = set_protocol_surplus (set_mig_quote_fee (set_protocol_quote (w_pool w)
                  (p_protocol_quote (w_pool w) - a)) (p_mig_quote_fee (w_pool w) - b)) 1)
       \/ ((p_protocol_surplus (w_pool w) <> 0 \/ p_quote (w_pool w) < c_threshold (w_config w))
           /\ s = 0
           /\ p' = set_mig_quote_fee (set_protocol_quote (w_pool w) (p_protocol_quote (w_pool w) - a))
                     (p_mig_quote_fee (w_pool w) - b))) ->
  Inv (set_w_log (set_w_qvault (set_w_pool w p') (w_qvault w - (a + b + s))) l).
Proof.
  intros I A B [(S & T & -> & ->)|(_ & -> & ->)]; ivd I.
  - constructor; unf; simpl in *; auto; try lia.
    assert (P : p_progress (w_pool w) =? 0 = false) by lia.
    rewrite P in *. rewrite S in iv8. change (unless true ?x) with 0.
    change (unless (0 =? 1) ?x) with x in iv8.
    destruct (p_progress (w_pool w) =? 3) eqn:P3; lia.
  - constructor; unf; simpl in *; auto; try lia.
    destruct (p_progress (w_pool w) =? 0) eqn:P0; [lia|].
    destruct (p_progress (w_pool w) =? 3) eqn:P3; lia.
Qed.

Lemma surplus_protocol_nonneg c p : c_threshold c <= p_quote p -> 0 <= surplus_protocol c (p_quote p).
Proof.
  intros H. unfold surplus_protocol, surplus_shared, surplus_total.
  assert ((p_quote p - c_threshold c) * 80 / 100 <= p_quote p - c_threshold c)
    by (apply Z.div_le_upper_bound; lia). lia.
Qed.

Lemma set_pool_self w p : w_pool w = p -> set_w_pool w p = w.
Proof. intros <-. destruct w; reflexivity. Qed.

Lemma inv_protocol w s b q w' : Inv w -> 0 <= b -> 0 <= q ->
  claim_protocol_fee w s b q = Ok w' -> Inv w'.
Proof.
  intros I Hb Hq H. unfold claim_protocol_fee in H.
  apply bind_ok in H. destruct H as (u & _ & H).
  apply bind_ok in H. destruct H as ([p1 x] & R & H).
  pose proof (iv_nonneg _ I) as NN.
  apply claim_base_ok in R; try lia. destruct R as (a & b' & A & B & -> & _ & ->).
  apply bind_ok in H. destruct H as (w1 & W1 & H).
  assert (E1 : exists l, w1 = after_base_claim w a b' l).
  { unfold after_base_claim. destruct (0 <? a + b') eqn:Z0.
    - unfold pay_base, log in W1. minv. eexists. reflexivity.
    - minv. exists (w_log w). replace (a + b') with 0 by lia. rewrite Z.sub_0_r.
      destruct w; reflexivity. }
  destruct E1 as (l & ->). clear W1.
  pose proof (inv_base_claim w a b' l I A B) as I1.
  apply bind_ok in H. destruct H as ([p2 y] & R2 & H).
  apply claim_quote_surplus_ok in R2; simpl; try lia.
  destruct R2 as (a2 & b2 & s2 & A2 & B2 & -> & _ & CASES).
  assert (NS : 0 <= s2).
  { destruct CASES as [(_ & T & -> & _)|(_ & -> & _)]; [|lia]. apply surplus_protocol_nonneg; auto. }
  pose proof (inv_quote_claim _ a2 b2 s2
    (if 0 <? a2 + b2 + s2 then l ++ [mkTransfer TQuote PPool PTreasury (a2 + b2 + s2)] else l) p2 I1 A2 B2 CASES) as I2.
  destruct (0 <? a2 + b2 + s2) eqn:Z2.
  - unfold pay_quote, log in H. minv. exact I2.
  - minv. simpl in I2. replace (a2 + b2 + s2) with 0 in I2 by lia. rewrite Z.sub_0_r in I2.
    exact I2.
Qed.

Lemma inv_zap w s m base al ok w' : Inv w -> 0 <= m ->
  zap_protocol_fee w s m base al ok = Ok w' -> Inv w'.
Proof.
  intros I Hb H. unfold zap_protocol_fee in H.
  apply bind_ok in H. destruct H as (u & _ & H).
  apply bind_ok in H. destruct H as (u2 & _ & H).
  apply bind_ok in H. destruct H as ([p1 x] & R & H).
  apply bind_ok in H. destruct H as (u3 & _ & H).
  apply bind_ok in H. destruct H as (u4 & _ & H).
  pose proof (iv_nonneg _ I) as NN. destruct base.
  - apply claim_base_ok in R; try lia. destruct R as (a & b' & A & B & -> & _ & ->).
    unfold pay_base, log in H. minv. exact (inv_base_claim w a b' _ I A B).
  - apply claim_quote_surplus_ok in R; try lia.
    destruct R as (a2 & b2 & s2 & A2 & B2 & -> & _ & CASES).
    unfold pay_quote, log in H. minv. apply (inv_quote_claim w a2 b2 s2); auto.
Qed.
