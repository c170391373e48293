(** * The invariant is preserved by migration, LP tokens and swaps; reachable worlds. *)
From Coq Require Import ZArith QArith List Bool Lia ZifyBool Lqa.
From Verif Require Import Base MathModel CurveModel FeeModel ConfigModel PoolModel TxModel
  SystemModel Spec Lib CurveProofs CurveLoops Potential CalcProofs ConfigProofs FeeProofs
  SwapProofs InvProofs InvOps.
Import ListNotations.
Open Scope Z_scope.
#[local] Arguments Z.pow : simpl never.
#[local] Arguments Z.testbit : simpl never.
#[local] Arguments unless : simpl never.

(** ** Migration *)

Lemma protocol_fees_nonneg h price base quote bps fb fq :
  0 <= base -> 0 <= quote -> 0 <= bps -> MIN_SQRT_PRICE < price ->
  migration_protocol_fees h price base quote bps = Ok (fb, fq) -> 0 <= fb /\ 0 <= fq.
Proof.
  intros Hb Hq Hp HM H. unfold migration_protocol_fees in H. destruct h.
  - apply bind_ok in H. destruct H as (x & X & H). apply mul_div_cast_down in X.
    apply bind_ok in H. destruct H as (y & Y & H). apply mul_div_cast_down in Y.
    apply Ok_inj in H. apply pair_inj in H. destruct H as (<- & <-).
    destruct X as (-> & _), Y as (-> & _).
    split; apply div_nonneg; try nia; reflexivity.
  - apply bind_ok in H. destruct H as (y & Y & H). apply mul_div_cast_down in Y.
    apply bind_ok in H. destruct H as (l & L & H).
    apply bind_ok in H. destruct H as (x & X & H).
    apply Ok_inj in H. apply pair_inj in H. destruct H as (<- & <-).
    destruct Y as (-> & _).
    assert (Y0 : 0 <= quote * bps / BASIS_POINT_MAX) by (apply div_nonneg; [nia|reflexivity]).
    split; auto.
    unfold liquidity_from_delta_quote in L. minv.
    assert (LL0 : 0 <= quote * bps / BASIS_POINT_MAX * Q128 / (price - MIN_SQRT_PRICE)).
    { apply div_nonneg; [|lia]. apply Z.mul_nonneg_nonneg; [auto|discriminate]. }
    apply delta_base_ok in X. destruct X as (X1 & X2 & -> & _). unfold divr.
    apply div_nonneg; [|auto]. apply Z.mul_nonneg_nonneg; [exact LL0|clear -X1; lia].
Qed.

(** The amounts of a migration. *)
Lemma split_ok w h fb fq eb eq :
  Inv w -> migration_split w h = Ok (fb, fq, eb, eq) ->
  exists ib iq, eb = ib - fb /\ eq = iq - fq /\ 0 <= fb <= ib /\ 0 <= fq <= iq
    /\ iq = c_threshold (w_config w) - migration_fee_total (w_config w)
    /\ ib + p_partner_base (w_pool w) + p_protocol_base (w_pool w) + p_creator_base (w_pool w)
       <= w_bvault w
    /\ (h = Compounding -> ib = c_base_threshold (w_config w))
    /\ (h = Concentrated -> ib = w_bvault w - (p_partner_base (w_pool w) + p_protocol_base (w_pool w)
           + p_creator_base (w_pool w)))
    /\ migration_protocol_fees h (c_mig_price (w_config w)) ib iq
         PROTOCOL_LIQUIDITY_MIGRATION_FEE_BPS = Ok (fb, fq).
Proof.
  intros I H. pose proof (created_cfg_ok _ (iv_created _ I)) as K.
  unfold migration_split in H. cbv zeta in H.
  apply bind_ok in H. destruct H as (fees & F & H). apply fees_sum_eq in F.
  apply bind_ok in H. destruct H as (rs & R & H). apply ssub_ok in R. destruct R as (R & R2).
  apply bind_ok in H. destruct H as ([ib iq] & A & H).
  apply bind_ok in H. destruct H as ([x y] & P & H).
  apply bind_ok in H. destruct H as (e1 & E1 & H). apply ssub_ok in E1. destruct E1 as (E1 & E1').
  apply bind_ok in H. destruct H as (e2 & E2 & H). apply ssub_ok in E2. destruct E2 as (E2 & E2').
  apply Ok_inj in H. inversion H; subst x y e1 e2; clear H.
  rewrite (iv_mbps _ I) in P.
  assert (AM : iq = c_threshold (w_config w) - migration_fee_total (w_config w) /\ 0 < iq
     /\ ib <= rs /\ 0 <= ib /\ (h = Compounding -> ib = c_base_threshold (w_config w))
     /\ (h = Concentrated -> ib = rs)).
  { pose proof (ok_base _ K). unfold migration_amounts_2 in A. destruct h.
    - apply bind_ok in A. destruct A as (u & U & A). apply require_ok in U.
      apply bind_ok in A. destruct A as ([q f] & Q & A). apply mig_quote_eq in Q; auto.
      apply Ok_inj in A. inversion A; subst; clear A. simpl.
      repeat split; try lia; try congruence.
    - apply bind_ok in A. destruct A as ([q f] & Q & A). apply mig_quote_eq in Q; auto.
      apply Ok_inj in A. inversion A; subst; clear A. simpl.
      repeat split; try lia; try congruence. }
  destruct AM as (A1 & A2 & A3 & A4 & A5 & A6).
  assert (NN : 0 <= fb /\ 0 <= fq).
  { eapply protocol_fees_nonneg; [| | | |exact P]; try lia; try discriminate.
    pose proof (ok_start_min _ K). pose proof (co_mig_lo _ _ (ok_curve _ K)). lia. }
  exists ib, iq. repeat split; auto; try lia.
  intros HH. rewrite (A6 HH). lia.
Qed.

Lemma burnable_le c l b : get_burnable_amount c l = Ok b -> b <= l.
Proof. unfold get_burnable_amount. intros H. minv. lia. Qed.

Lemma burn_rest_ok w fb w' : 
  burn_rest w fb = Ok w' -> 
  exists b sup l, w' = set_w_log (set_w_supply (set_w_bvault w (w_bvault w - b)) sup) l
    /\ p_partner_base (w_pool w) + p_protocol_base (w_pool w) + p_creator_base (w_pool w) + fb
       <= w_bvault w - b
    /\ 0 <= b /\ sup = w_supply w - b
    /\ exists m, get_burnable_amount (w_config w) (w_bvault w -
        (p_partner_base (w_pool w) + p_protocol_base (w_pool w) + p_creator_base (w_pool w) + fb))
        = Ok m /\ b = Z.max 0 m.
Proof.
  unfold burn_rest. intros H.
  apply bind_ok in H. destruct H as (fees & F & H). apply fees_sum_eq in F.
  apply bind_ok in H. destruct H as (k & K & H). apply sadd_ok in K.
  apply bind_ok in H. destruct H as (l & L & H). apply ssub_ok in L.
  apply bind_ok in H. destruct H as (b & B & H). pose proof (burnable_le _ _ _ B).
  assert (EL : l = w_bvault w - (p_partner_base (w_pool w) + p_protocol_base (w_pool w)
                 + p_creator_base (w_pool w) + fb)) by lia. 
  destruct (0 <? b) eqn:Z0.
  - unfold burn_base, log in H. minv. exists b, (w_supply w - b). eexists.
    split; [reflexivity|]. split; [lia|]. split; [lia|]. split; [reflexivity|].
    exists b. rewrite <- EL. split; auto. lia.
  - minv. exists 0, (w_supply w'), (w_log w'). split.
    { rewrite Z.sub_0_r. destruct w'; reflexivity. }
    split; [lia|]. split; [lia|]. split; [lia|]. exists b. rewrite <- EL. split; auto. lia.
Qed.

(** Shared end of both migrations: the pool's state afterwards. *)
Lemma inv_migrated w w' fb fq :
  Inv w -> p_progress (w_pool w) = 2 ->
  0 <= fb -> 0 <= fq ->
  fq <= c_threshold (w_config w) - migration_fee_total (w_config w) ->
  w_qvault w - (c_threshold (w_config w) - migration_fee_total (w_config w) - fq) <= w_qvault w' ->
  p_partner_base (w_pool w) + p_protocol_base (w_pool w) + p_creator_base (w_pool w) + fb
    <= w_bvault w' ->
  w_lamports w' = w_lamports w ->
  w_config w' = w_config w ->
  w_pool w' = set_progress (set_is_migrated
                (set_mig_quote_fee (set_mig_base_fee (w_pool w) fb) fq) 1) 3 ->
  match w_meta w' with
  | None => 0 <= w_lp w'
  | Some m => 0 <= m_partner_locked m /\ 0 <= m_creator_locked m
       /\ 0 <= m_partner_liq m /\ 0 <= m_creator_liq m
       /\ m_partner_lock_done m = 0 /\ m_creator_lock_done m = 0
       /\ m_partner_claim_done m = 0 /\ m_creator_claim_done m = 0
       /\ m_partner_locked m + m_creator_locked m + m_partner_liq m + m_creator_liq m <= w_lp w'
  end ->
  Inv w'.
Proof.
  intros I P Hb Hq Hq2 HQ HB HL HC HP HM. ivd I.
  constructor; unf; rewrite ?HC, ?HP, ?HL in *; rewrite P in *; simpl in *; auto; try lia.
  - destruct (w_meta w') as [m|]; auto. destruct HM as (M1 & M2 & M3 & M4 & -> & -> & -> & -> & M5).
    change (unless (0 =? 1) ?x) with x. lia.
  - destruct (w_meta w') as [m|]; auto.
    destruct HM as (M1 & M2 & M3 & M4 & -> & -> & -> & -> & M5). repeat split; auto; lia.
Qed.

Lemma liq_dist_ok c liq a b :
  0 <= liq -> 0 <= c_partner_perm_pct c -> 0 <= c_creator_perm_pct c ->
  0 <= c_partner_liq_pct c ->
  0 <= vi_percentage (c_partner_vesting c) -> 0 <= vi_percentage (c_creator_vesting c) ->
  get_liquidity_distribution c liq = Ok (a, b) ->
  0 <= li_perm a /\ 0 <= li_unlocked a /\ 0 <= li_vested a
  /\ 0 <= li_perm b /\ 0 <= li_unlocked b /\ 0 <= li_vested b
  /\ li_perm a + li_unlocked a + li_vested a + li_perm b + li_unlocked b + li_vested b = liq
  /\ li_perm a = liq * c_partner_perm_pct c / 100
  /\ li_vested a = liq * vi_percentage (c_partner_vesting c) / 100
  /\ li_unlocked a = liq * c_partner_liq_pct c / 100
  /\ li_perm b = liq * c_creator_perm_pct c / 100
  /\ li_vested b = liq * vi_percentage (c_creator_vesting c) / 100
  /\ li_perm_pct a = c_partner_perm_pct c /\ li_vesting a = c_partner_vesting c
  /\ li_perm_pct b = c_creator_perm_pct c /\ li_vesting b = c_creator_vesting c.
Proof.
  intros Hl H1 H2 H3 H4 H5 H. unfold get_liquidity_distribution in H.
  repeat (apply bind_ok in H; let x := fresh "x" in let X := fresh "X" in
          destruct H as (x & X & H);
          first [apply mul_div_cast128_down in X; destruct X as (X & _ & _)
                |apply ssub_ok in X; destruct X as (X & ?)]).
  apply Ok_inj in H. apply pair_inj in H. destruct H as (<- & <-). simpl.
  assert (N : forall k, 0 <= k -> 0 <= liq * k / 100) by (intros; apply div_nonneg; nia).
  pose proof (N _ H1). pose proof (N _ H2). pose proof (N _ H3). pose proof (N _ H4).
  pose proof (N _ H5). repeat split; auto; try lia.
Qed.

Record pcts_ok (c : config) : Prop := {
  pk_pp : 0 <= c_partner_perm_pct c; pk_cp : 0 <= c_creator_perm_pct c;
  pk_pl : 0 <= c_partner_liq_pct c; pk_cl : 0 <= c_creator_liq_pct c;
  pk_pv : 0 <= vi_percentage (c_partner_vesting c);
  pk_cv : 0 <= vi_percentage (c_creator_vesting c);
  pk_sum : c_partner_perm_pct c + c_creator_perm_pct c + c_partner_liq_pct c
    + c_creator_liq_pct c + vi_percentage (c_partner_vesting c)
    + vi_percentage (c_creator_vesting c) = 100;
  pk_v1 : c_migration_option c = 0 -> vi_percentage (c_partner_vesting c) = 0
    /\ vi_percentage (c_creator_vesting c) = 0
}.

Lemma created_pcts c : created c -> pcts_ok c.
Proof.
  intros H. apply created_inv in H.
  destruct H as (q & sup & spl & now & mig & sb & ba & fl & pre & post & qm & fc & lr & qa & bps
                 & T & _ & B).
  pose proof (cb_valid _ _ _ _ _ _ _ _ _ _ _ _ _ _ _ _ B) as V.
  apply validate_inv in V. destruct V as (_ & V).
  rewrite (cb_eq _ _ _ _ _ _ _ _ _ _ _ _ _ _ _ _ B).
  pose proof (pt_pl _ T). pose proof (pt_pp _ T). pose proof (pt_cl _ T). pose proof (pt_cp _ T).
  pose proof (pt_pv _ T) as (PV & _). pose proof (pt_cv _ T) as (CV & _).
  pose proof (va_pct _ _ _ V). unfold u8ok in *.
  constructor; simpl; try lia.
  intros O. destruct (va_v1 _ _ _ V O) as (_ & _ & _ & _ & Z1 & Z2).
  unfold vq_is_zero in *. lia.
Qed.

Lemma inv_migrate_v1 w ok lp w' : Inv w -> 0 <= lp -> migrate_v1 w ok lp = Ok w' -> Inv w'.
Proof.
  intros I HL H. pose proof (created_pcts _ (iv_created _ I)) as PK.
  unfold migrate_v1 in H.
  apply bind_ok in H. destruct H as (u0 & _ & H).
  apply bind_ok in H. destruct H as (u1 & R & H).
  unfold migration_ready in R. cbv zeta in R.
  apply bind_ok in R. destruct R as (r0 & R0 & R). apply require_ok in R0.
  apply bind_ok in R. destruct R as (r1 & _ & R). apply require_ok in R.
  unfold LockedVesting in R0. assert (P : p_progress (w_pool w) = 2) by lia.
  apply bind_ok in H. destruct H as (m & M & H). apply ok_or_ok in M.
  apply bind_ok in H. destruct H as ([[[fb fq] eb] eq] & S & H).
  apply split_ok in S; auto. destruct S as (ib & iq & -> & -> & FB & FQ & IQ & IB & _).
  apply bind_ok in H. destruct H as (w1 & W1 & H).
  apply bind_ok in H. destruct H as (w2 & W2 & H). cbv zeta in H.
  apply bind_ok in H. destruct H as (w4 & W4 & H).
  apply bind_ok in H. destruct H as ([da db] & D & H).
  apply bind_ok in H. destruct H as ([[[pl pu] cl] cu] & V & H). apply Ok_inj in H.
  unfold pay_base, pay_quote, log in W1, W2. minv.
  apply burn_rest_ok in W4. simpl in W4.
  destruct W4 as (b & sup & l & -> & BR & B0 & _).
  apply liq_dist_ok in D; try (apply PK); auto.
  destruct (pk_v1 _ PK) as (V1 & V2); [lia|].
  unfold to_damm_v1_distribution in V. minv. inversion V; subst; clear V.
  pose proof (iv_meta _ I) as MI. rewrite M in MI.
  apply (inv_migrated w _ fb fq); auto; simpl; try lia.
Qed.

Lemma inv_migrate_v2 w x now w' : Inv w -> migrate_v2 w x now = Ok w' -> Inv w'.
Proof.
  intros I H.
  unfold migrate_v2 in H.
  apply bind_ok in H. destruct H as (u0 & _ & H).
  apply bind_ok in H. destruct H as (u1 & R & H). cbv zeta in H.
  unfold migration_ready in R. cbv zeta in R.
  apply bind_ok in R. destruct R as (r0 & R0 & R). apply require_ok in R0.
  apply bind_ok in R. destruct R as (r1 & _ & R). apply require_ok in R.
  unfold LockedVesting in R0. assert (P : p_progress (w_pool w) = 2) by lia.
  apply bind_ok in H. destruct H as (u2 & _ & H).
  apply bind_ok in H. destruct H as ([[[fb fq] eb] eq] & S & H).
  apply split_ok in S; auto. destruct S as (ib & iq & -> & -> & FB & FQ & IQ & IB & _).
  apply bind_ok in H. destruct H as ([[price liq] dead] & INF & H).
  apply bind_ok in H. destruct H as ([pa cr] & D & H).
  apply bind_ok in H. destruct H as (tp & TP & H).
  apply bind_ok in H. destruct H as (tc & TC & H).
  destruct (if tc <? tp then _ else _) as [[[first second] o1] o2] eqn:OR.
  apply bind_ok in H. destruct H as (t1 & T1 & H).
  apply bind_ok in H. destruct H as (liq1 & L1 & H).
  apply bind_ok in H. destruct H as (vp1 & V1 & H).
  apply bind_ok in H. destruct H as (u3 & G1 & H). apply require_ok in G1.
  apply bind_ok in H. destruct H as (w1 & W1 & H).
  apply bind_ok in H. destruct H as (w2 & W2 & H).
  apply bind_ok in H. destruct H as (lb & LB & H). apply ssub_ok in LB. destruct LB as (-> & LB).
  apply bind_ok in H. destruct H as (lq & LQ & H). apply ssub_ok in LQ. destruct LQ as (-> & LQ).
  apply bind_ok in H. destruct H as (liq2 & L2 & H).
  apply bind_ok in H. destruct H as (w3 & W3 & H).
  apply bind_ok in H. destruct H as (w6 & W6 & H). apply Ok_inj in H.
  assert (E3 : w_pool w3 = set_mig_quote_fee (set_mig_base_fee (w_pool w) fb) fq
     /\ w_config w3 = w_config w /\ w_lamports w3 = w_lamports w /\ w_meta w3 = w_meta w
     /\ w_lp w3 = w_lp w /\ w_qvault w - (iq - fq) <= w_qvault w3).
  { unfold pay_base, pay_quote, log in W1, W2.
    apply bind_ok in W1. destruct W1 as (a1 & _ & W1). apply Ok_inj in W1. subst w1.
    apply bind_ok in W2. destruct W2 as (a2 & _ & W2). apply Ok_inj in W2. subst w2.
    destruct (0 <? liq2).
    - apply bind_ok in W3. destruct W3 as (s2 & _ & W3).
      apply bind_ok in W3. destruct W3 as (b1 & _ & W3).
      apply bind_ok in W3. destruct W3 as (b2 & _ & W3).
      apply bind_ok in W3. destruct W3 as (b3 & G & W3). apply require_ok in G.
      apply bind_ok in W3. destruct W3 as (y1 & Y1 & W3).
      apply bind_ok in W3. destruct W3 as (y2 & Y2 & W3). apply Ok_inj in W3.
      unfold pay_base, pay_quote, log in Y1, Y2.
      apply bind_ok in Y1. destruct Y1 as (a3 & _ & Y1). apply Ok_inj in Y1. subst y1.
      apply bind_ok in Y2. destruct Y2 as (a4 & _ & Y2). apply Ok_inj in Y2. subst y2.
      subst w3. simpl. repeat (split; [reflexivity|]). lia.
    - apply Ok_inj in W3. subst w3. simpl. repeat (split; [reflexivity|]). lia. }
  destruct E3 as (E1 & E2 & E3 & E4 & E5 & QV).
  apply burn_rest_ok in W6. simpl in W6. rewrite E1 in W6. simpl in W6.
  destruct W6 as (b & sup & l' & -> & BR & B0 & _). subst w'.
  pose proof (iv_meta _ I) as MI. pose proof (iv_lp _ I) as LPI. unfold lp_owed in LPI.
  apply (inv_migrated w _ fb fq); auto; simpl; rewrite ?E1; auto; try lia.
  rewrite E4, E5. destruct (w_meta w) as [m|]; [|auto].
  destruct MI as (M1 & M2 & M3 & M4 & _ & _ & _ & _ & M5).
  destruct (M5 ltac:(lia)) as (D1 & D2 & D3 & D4). rewrite D1, D2, D3, D4 in *.
  change (unless (0 =? 1) ?x) with x in LPI. repeat split; auto; lia.
Qed.

(** ** LP tokens *)
Lemma inv_lp_pay w m m' a to w' :
  Inv w -> w_meta w = Some m -> p_progress (w_pool w) = 3 ->
  (0 <= m_partner_locked m' /\ 0 <= m_creator_locked m'
       /\ 0 <= m_partner_liq m' /\ 0 <= m_creator_liq m'
       /\ (m_partner_lock_done m' = 0 \/ m_partner_lock_done m' = 1)
       /\ (m_creator_lock_done m' = 0 \/ m_creator_lock_done m' = 1)
       /\ (m_partner_claim_done m' = 0 \/ m_partner_claim_done m' = 1)
       /\ (m_creator_claim_done m' = 0 \/ m_creator_claim_done m' = 1)) ->
  lp_owed (set_w_meta w (Some m')) + a = lp_owed w ->
  pay_lp (set_w_meta w (Some m')) to a = Ok w' -> Inv w'.
Proof.
  intros I M P (Q1 & Q2 & Q3 & Q4 & Q5 & Q6 & Q7 & Q8) HO H.
  unfold pay_lp, log in H. apply bind_ok in H. destruct H as (u & L & H).
  apply Ok_inj in H. subst w'. ivd I.
  constructor; try assumption.
  - clear - L iv11 HO. unfold lp_owed in *. simpl in *. lia.
  - simpl. repeat (split; [assumption|]). intros X. exfalso. apply X. exact P.
Qed.

Ltac lpcase MI :=
  destruct MI as (M1 & M2 & M3 & M4 & M5 & M6 & M7 & M8 & M9);
  repeat match goal with
  | X : m_creator_lock_done ?m = 0 \/ _ |- _ => destruct X as [X|X]
  | X : m_partner_lock_done ?m = 0 \/ _ |- _ => destruct X as [X|X]
  | X : m_creator_claim_done ?m = 0 \/ _ |- _ => destruct X as [X|X]
  | X : m_partner_claim_done ?m = 0 \/ _ |- _ => destruct X as [X|X]
  end.

Lemma meta_lock_ok w m m' a owner p :
  w_meta w = Some m ->
  0 <= m_partner_locked m -> 0 <= m_creator_locked m -> 
  0 <= m_partner_liq m -> 0 <= m_creator_liq m ->
  (m_partner_lock_done m = 0 \/ m_partner_lock_done m = 1) ->
  (m_creator_lock_done m = 0 \/ m_creator_lock_done m = 1) ->
  (m_partner_claim_done m = 0 \/ m_partner_claim_done m = 1) ->
  (m_creator_claim_done m = 0 \/ m_creator_claim_done m = 1) ->
  match owner =? m_partner m, owner =? p_creator p with
           | true, true => lock_as_self m
           | true, false => lock_as_partner m
           | false, true => lock_as_creator m
           | false, false => Err EInvalidOwnerAccount
           end = Ok (m', a) \/
  match owner =? m_partner m, owner =? p_creator p with
           | true, true => claim_as_self m
           | true, false => claim_as_partner m
           | false, true => claim_as_creator m
           | false, false => Err EInvalidOwnerAccount
           end = Ok (m', a) ->
  (0 <= m_partner_locked m' /\ 0 <= m_creator_locked m'
       /\ 0 <= m_partner_liq m' /\ 0 <= m_creator_liq m'
       /\ (m_partner_lock_done m' = 0 \/ m_partner_lock_done m' = 1)
       /\ (m_creator_lock_done m' = 0 \/ m_creator_lock_done m' = 1)
       /\ (m_partner_claim_done m' = 0 \/ m_partner_claim_done m' = 1)
       /\ (m_creator_claim_done m' = 0 \/ m_creator_claim_done m' = 1))
  /\ lp_owed (set_w_meta w (Some m')) + a = lp_owed w.
Proof.
  intros M P1 P2 P3 P4 D1 D2 D3 D4 H. unfold lp_owed. simpl. rewrite M.
  unfold lock_as_self, lock_as_partner, lock_as_creator,
    claim_as_self, claim_as_partner, claim_as_creator in H.
  destruct H as [H|H]; destruct (owner =? m_partner m); destruct (owner =? p_creator p);
  try discriminate H;
  (apply bind_ok in H; destruct H as (u & A & H); apply require_ok in A);
  (apply bind_ok in H; destruct H as (u2 & B & H));
  try apply require_ok in B; try apply sadd_ok in B;
  try (apply bind_ok in H; destruct H as (u3 & B3 & H));
  apply Ok_inj in H; apply pair_inj in H; destruct H as (<- & <-); simpl;
  unfold unless; (split; [repeat split; auto|]); 
  repeat match goal with |- context [if ?b then _ else _] => destruct b eqn:? end; lia.
Qed.

Lemma inv_lock_lp w o w' : Inv w -> lock_lp w o = Ok w' -> Inv w'.
Proof.
  intros I H. unfold lock_lp in H.
  apply bind_ok in H. destruct H as (u & P & H). apply require_ok in P. unfold CreatedPool in P.
  apply bind_ok in H. destruct H as (m & M & H). apply ok_or_ok in M.
  apply bind_ok in H. destruct H as ([m' a] & R & H).
  pose proof (iv_meta _ I) as MI. rewrite M in MI.
  destruct MI as (M1 & M2 & M3 & M4 & M5 & M6 & M7 & M8 & M9).
  destruct (meta_lock_ok w m m' a o (w_pool w) M M1 M2 M3 M4 M5 M6 M7 M8 (or_introl R)) as (Q & LO).
  eapply inv_lp_pay; eauto. lia.
Qed.

Lemma inv_claim_lp w o w' : Inv w -> claim_lp w o = Ok w' -> Inv w'.
Proof.
  intros I H. unfold claim_lp in H.
  apply bind_ok in H. destruct H as (u & P & H). apply require_ok in P. unfold CreatedPool in P.
  apply bind_ok in H. destruct H as (m & M & H). apply ok_or_ok in M.
  apply bind_ok in H. destruct H as ([m' a] & R & H).
  pose proof (iv_meta _ I) as MI. rewrite M in MI.
  destruct MI as (M1 & M2 & M3 & M4 & M5 & M6 & M7 & M8 & M9).
  destruct (meta_lock_ok w m m' a o (w_pool w) M M1 M2 M3 M4 M5 M6 M7 M8 (or_intror R)) as (Q & LO).
  eapply inv_lp_pay; eauto. lia.
Qed.

(** ** Swaps *)
Lemma fee_mode_cases cm d ref fm : get_fee_mode cm d ref = Ok fm ->
  fm_referral fm = ref /\
  fm_on_base fm = match d with BaseToQuote => fm_on_input fm | QuoteToBase => negb (fm_on_input fm) end
  /\ (d = BaseToQuote -> fm_on_input fm = false).
Proof.
  unfold get_fee_mode. intros H. apply bind_ok in H. destruct H as (m & _ & H).
  apply Ok_inj in H. subst. destruct m, d; simpl; auto; repeat split; auto; discriminate.
Qed.

(** A swap changes a vault by exactly what it adds to the reserve and to the fee counters. *)
Record vault_move (w w' : world) (p2 : pool) : Prop := {
  vm_quote : w_qvault w - p_quote (w_pool w) - p_partner_quote (w_pool w)
       - p_creator_quote (w_pool w) - p_protocol_quote (w_pool w)
     = w_qvault w' - p_quote p2 - p_partner_quote p2 - p_creator_quote p2 - p_protocol_quote p2;
  vm_base : w_bvault w - p_base (w_pool w) - p_partner_base (w_pool w)
       - p_creator_base (w_pool w) - p_protocol_base (w_pool w)
     = w_bvault w' - p_base p2 - p_partner_base p2 - p_creator_base p2 - p_protocol_base p2;
  vm_pb : p_partner_base (w_pool w) <= p_partner_base p2;
  vm_pq : p_partner_quote (w_pool w) <= p_partner_quote p2;
  vm_cb : p_creator_base (w_pool w) <= p_creator_base p2;
  vm_cq : p_creator_quote (w_pool w) <= p_creator_quote p2;
  vm_prb : p_protocol_base (w_pool w) <= p_protocol_base p2;
  vm_prq : p_protocol_quote (w_pool w) <= p_protocol_quote p2;
  vm_nb : 0 <= p_base (w_pool w) -> 0 <= p_base p2;
  vm_nq : 0 <= p_quote (w_pool w) -> 0 <= p_quote p2
}.

Lemma swap_vault_move w w' a fm r num fee gross pf cf p2 :
  cfg_ok (w_config w) ->
  get_fee_mode (c_collect_fee_mode (w_config w)) (sa_dir a) (is_some (sa_referral a)) = Ok fm ->
  swap_facts (w_config w) (p_price (w_pool w)) fm (sa_dir a) r num fee gross ->
  applied (w_config w) (w_pool w) p2 r fm (sa_dir a) pf cf gross ->
  w_bvault w' = w_bvault w + base_in (sa_dir a) (sr_included r)
       - quote_in (sa_dir a) (sr_output r)
       - (match sa_referral a with Some _ => if fm_on_base fm then sr_referral r else 0 | None => 0 end) ->
  w_qvault w' = w_qvault w + quote_in (sa_dir a) (sr_included r)
       - base_in (sa_dir a) (sr_output r)
       - (match sa_referral a with Some _ => if fm_on_base fm then 0 else sr_referral r | None => 0 end) ->
  vault_move w w' p2.
Proof.
  intros K FM SF AP BV QV.
  destruct SF as [_ _ _ FN PARTS IN OUT MV PRICE _ EX GR ON _].
  destruct AP as [SPL PP _ PB PQ BN QN _ _ APB APQ CB CQ PRB PRQ _ _ _ _ REST].
  apply parts_sum in PARTS; auto. destruct PARTS as (PS1 & PS2 & PS3 & PS4 & PS5).
  apply split_pc_ok in SPL; auto; [|apply (ok_ctf _ K)]. destruct SPL as (_ & SP1 & SP2 & SP3).
  apply fee_mode_cases in FM. destruct FM as (FR & FB & FD). clear MV REST PP PRICE K.
  constructor.
  - rewrite QV, PQ, APQ, CQ, PRQ. unfold quote_in, base_in, fi_dq.
    destruct (sa_dir a); [rewrite (FD eq_refl) in *|destruct (fm_on_input fm)]; rewrite FB; simpl;
    rewrite ?FB; destruct (sa_referral a); simpl in FR; try rewrite (PS5 FR) in *; lia.
  - rewrite BV, PB, APB, CB, PRB. unfold quote_in, base_in, fi_db.
    destruct (sa_dir a); [rewrite (FD eq_refl) in *|destruct (fm_on_input fm)]; rewrite FB; simpl;
    rewrite ?FB; destruct (sa_referral a); simpl in FR; try rewrite (PS5 FR) in *; lia.
  - rewrite APB. destruct (fm_on_base fm); lia.
  - rewrite APQ. destruct (fm_on_base fm); lia.
  - rewrite CB. destruct (fm_on_base fm); lia.
  - rewrite CQ. destruct (fm_on_base fm); lia.
  - rewrite PRB. destruct (fm_on_base fm); lia.
  - rewrite PRQ. destruct (fm_on_base fm); lia.
  - intros. destruct (sa_dir a); [rewrite PB; simpl; lia | apply BN; auto].
  - intros. destruct (sa_dir a); [apply QN; auto| rewrite PQ; simpl; lia].
Qed.

(** Moving along the curve keeps the two potentials. *)
Lemma swap_potentials w a fm r num fee gross pf cf p2 s :
  cfg_ok (w_config w) ->
  swap_facts (w_config w) (p_price (w_pool w)) fm (sa_dir a) r num fee gross ->
  applied (w_config w) (w_pool w) p2 r fm (sa_dir a) pf cf gross ->
  quote_area_ceil (c_start (w_config w)) (curve_points (w_config w)) (p_price (w_pool w))
     <= p_quote (w_pool w) ->
  (inject_Z (s - p_base (w_pool w)) <= base_area (c_start (w_config w))
      (curve_points (w_config w)) (p_price (w_pool w)))%Q ->
  quote_area_ceil (c_start (w_config w)) (curve_points (w_config w)) (p_price p2) <= p_quote p2
  /\ (inject_Z (s - p_base p2) <= base_area (c_start (w_config w))
      (curve_points (w_config w)) (p_price p2))%Q.
Proof.
  intros K SF AP A B.
  assert (WF := co_wf _ _ (ok_curve _ K)). assert (ST := co_start _ _ (ok_curve _ K)).
  pose proof (moves_quote_ceil _ _ _ _ _ _ WF (sf_moves _ _ _ _ _ _ _ _ SF)) as MQ.
  pose proof (moves_base _ _ _ _ _ _ ST WF (sf_moves _ _ _ _ _ _ _ _ SF)) as MB.
  rewrite (ap_price _ _ _ _ _ _ _ _ _ AP), (ap_quote _ _ _ _ _ _ _ _ _ AP),
    (ap_base _ _ _ _ _ _ _ _ _ AP). split; [lia|].
  replace (s - (p_base (w_pool w) + fi_db (sa_dir a) (sr_excluded r) gross))
      with ((s - p_base (w_pool w)) + - fi_db (sa_dir a) (sr_excluded r) gross) by lia.
  rewrite inject_Z_plus, inject_Z_opp. lra.
Qed.

Lemma inv_swap w a w' : Inv w -> 0 <= sa_amount0 a -> do_swap w a = Ok w' -> Inv w'.
Proof.
  intros I HA H. pose proof (created_cfg_ok _ (iv_created _ I)) as K.
  pose proof (created_fees_ok _ (iv_created _ I)) as FK.
  unfold do_swap in H. apply bind_ok in H. destruct H as ([w2 r] & S & H). apply Ok_inj in H.
  simpl in H. subst w2.
  apply swap_full_effect in S; auto; [|apply (iv_price _ I)].
  destruct S as (fm & num & fee & gross & pf & cf & cur & p1 & E & _ & _).
  destruct E as [_ _ OPEN FM SF POOL BV QV _ SAME _].
  destruct POOL as (p2 & AP & PR & _ & CASES).
  assert (CW : w_config w' = w_config w) by (rewrite SAME; reflexivity).
  assert (LW : w_lamports w' = w_lamports w) by (rewrite SAME; reflexivity).
  assert (MW : w_meta w' = w_meta w) by (rewrite SAME; reflexivity).
  assert (LPW : w_lp w' = w_lp w) by (rewrite SAME; reflexivity).
  clear SAME.
  pose proof (swap_vault_move w w' a fm r num fee gross pf cf p2 K FM SF AP BV QV) as [QD BD V1 V2 V3 V4 V5 V6 V7 V8].
  destruct (iv_supply _ I) as (s & S1 & S2).
  destruct (swap_potentials w a fm r num fee gross pf cf p2 s K SF AP (iv_area _ I) S2) as (AREA & SUP).
  pose proof (sf_price _ _ _ _ _ _ _ _ SF) as PRICE2. rewrite <- (ap_price _ _ _ _ _ _ _ _ _ AP) in PRICE2.
  destruct (ap_rest _ _ _ _ _ _ _ _ _ AP) as [R1 R2 R3 R4 R5 R6 R7 R8 R9 R10 R11 R12 R13].
  assert (P0 : p_progress (w_pool w) = 0) by (apply (iv_complete _ I); auto).
  destruct (iv_open _ I P0) as (PS & CS & PRS & MS).
  assert (NP : p_progress (w_pool w) <> 3) by (rewrite P0; discriminate).
  destruct (iv_premig _ I NP) as (MB0 & MQ0 & LF & MG).
  pose proof (iv_nonneg _ I) as (N1 & N2 & N3 & N4 & N5 & N6 & N7 & N8 & N9 & N10).
  assert (NN : 0 <= p_partner_base p2 /\ 0 <= p_partner_quote p2
     /\ 0 <= p_creator_base p2 /\ 0 <= p_creator_quote p2
     /\ 0 <= p_protocol_base p2 /\ 0 <= p_protocol_quote p2
     /\ 0 <= p_mig_base_fee p2 /\ 0 <= p_mig_quote_fee p2
     /\ 0 <= p_base p2 /\ 0 <= p_quote p2).
  { clear - V1 V2 V3 V4 V5 V6 V7 V8 N1 N2 N3 N4 N5 N6 N7 N8 N9 N10 R12 R13.
    specialize (V7 N9). specialize (V8 N10). repeat split; lia. }
  pose proof (iv_quote _ I) as IQ. pose proof (iv_base _ I) as IB.
  unfold quote_owed in IQ. unfold base_owed in IB. rewrite P0 in IQ, IB. simpl in IQ, IB.
  pose proof (iv_lamports _ I) as IL. unfold lamports_owed in IL.
  pose proof (iv_lp _ I) as ILP. unfold lp_owed in ILP.
  assert (MT : forall pg, pg <> 3 -> match w_meta w with
    | None => True
    | Some m => 0 <= m_partner_locked m /\ 0 <= m_creator_locked m
       /\ 0 <= m_partner_liq m /\ 0 <= m_creator_liq m
       /\ (m_partner_lock_done m = 0 \/ m_partner_lock_done m = 1)
       /\ (m_creator_lock_done m = 0 \/ m_creator_lock_done m = 1)
       /\ (m_partner_claim_done m = 0 \/ m_partner_claim_done m = 1)
       /\ (m_creator_claim_done m = 0 \/ m_creator_claim_done m = 1)
       /\ (pg <> 3 ->
             m_partner_lock_done m = 0 /\ m_creator_lock_done m = 0
             /\ m_partner_claim_done m = 0 /\ m_creator_claim_done m = 0)
    end).
  { intros pg _. pose proof (iv_meta _ I) as MI. destruct (w_meta w) as [m|]; auto.
    destruct MI as (q1 & q2 & q3 & q4 & q5 & q6 & q7 & q8 & q9).
    repeat (split; [assumption|]). intros _. apply q9. exact NP. }
  assert (ICR := iv_created _ I). assert (ILG := iv_legacy _ I). assert (ICB := iv_cbits _ I).
  assert (IMB := iv_mbps _ I).
  clear I FM SF AP BV QV V1 V2 V3 V4 V5 V6 V7 V8 N1 N2 N3 N4 N5 N6 N7 N8 N9 N10 S2.
  destruct CASES as [(LT & PW)|(GE & (t & fees & T & FE & BR) & PW)].
  - constructor; unfold quote_owed, base_owed, lamports_owed, lp_owed;
    rewrite ?PW, ?CW, ?LW, ?MW, ?LPW, ?PR, ?P0, ?R3, ?R4, ?R5, ?R6, ?R7, ?R8, ?R9, ?R10, ?R11, ?R12, ?R13, ?PS, ?CS, ?PRS, ?MS, ?MB0, ?MQ0, ?LF, ?MG; auto.
    + split; discriminate.
    + tauto.
    + exists s; auto.
    + rewrite R12, R13, MB0, MQ0 in NN. exact NN.
    + change (0 =? 0) with true. cbv iota. clear - QD IQ. lia.
    + change (0 =? 0) with true. cbv iota. clear - BD IB. lia.
    + discriminate.
    + apply MT. discriminate.
  - apply lv_total_eq in T. subst t. apply fees_sum_eq in FE.
    pose proof (surplus_parts (w_config w) (p_quote p2) K GE) as (SU1 & SU2 & SU3 & SU4).
    pose proof (mig_fee_parts (w_config w) K) as (MF1 & MF2 & MF3 & MF4 & MF5).
    assert (PG : (if has_vesting (c_vesting (w_config w)) then PostBondingCurve else LockedVesting) = 1
       \/ (if has_vesting (c_vesting (w_config w)) then PostBondingCurve else LockedVesting) = 2).
    { destruct (has_vesting _); auto. }
    assert (VT : 0 <= vesting_total (w_config w)).
    { destruct (ok_vest _ K) as (t & T & T2 & _). apply lv_total_eq in T. clear - T T2. lia. }
    set (pg := if has_vesting (c_vesting (w_config w)) then PostBondingCurve else LockedVesting) in *.
    clearbody pg.
    assert (X : pg =? 0 = false) by (clear - PG; lia).
    assert (Y : pg =? 3 = false) by (clear - PG; lia).
    constructor; unfold quote_owed, base_owed, lamports_owed, lp_owed;
    rewrite ?PW, ?CW, ?LW, ?MW, ?LPW; cbn [p_progress p_quote p_base p_price p_partner_base p_partner_quote
     p_creator_base p_creator_quote p_protocol_base p_protocol_quote p_mig_base_fee p_mig_quote_fee
     p_partner_surplus p_creator_surplus p_protocol_surplus p_leftover p_mig_fee_status
     p_creation_bits p_legacy_bits p_is_migrated p_mig_fee_bps set_progress set_finish];
    rewrite ?R3, ?R4, ?R5, ?R6, ?R7, ?R8, ?R9, ?R10, ?R11, ?R12, ?R13, ?PS, ?CS, ?PRS, ?MS, ?MB0, ?MQ0, ?LF, ?MG; auto.
    + clear - PG. lia.
    + clear - PG GE. lia.
    + exists s; auto.
    + rewrite R12, R13, MB0, MQ0 in NN. exact NN.
    + rewrite X, Y.
      change (Z.testbit 0 ?b) with false. change (unless (0 =? 1) ?x) with x.
      change (unless false ?x) with x. unfold surplus_total in *. clear - QD IQ SU4 MF4. lia.
    + clear - PG BR FE VT. destruct PG as [-> | ->]; simpl; lia.
    + clear - PG. intros ->. lia.
    + apply MT. clear - PG; lia.
Qed.

(** A state that agrees with [w] on everything the invariant mentions, with at least as much
    in the vaults. *)
Lemma inv_mono w w' :
  Inv w -> w_pool w' = w_pool w -> w_config w' = w_config w -> w_meta w' = w_meta w ->
  w_lp w' = w_lp w -> w_bvault w <= w_bvault w' -> w_qvault w <= w_qvault w' ->
  w_lamports w <= w_lamports w' -> Inv w'.
Proof.
  intros I P C M L B Q S.
  destruct I as [i1 i2 i3 i4 i5 i6 i7 i8 i9 i10 i11 i12 i13 i14 i15 i16 i17 i18 i19 i20].
  unfold quote_owed, base_owed, lamports_owed, lp_owed in *.
  constructor; unfold quote_owed, base_owed, lamports_owed, lp_owed; rewrite ?P, ?C, ?M, ?L; auto.
  - eapply Z.le_trans; [exact i8|exact Q].
  - eapply Z.le_trans; [exact i9|exact B].
  - eapply Z.le_trans; [exact i10|exact S].
Qed.

Lemma u64b_ok z : u64b z = true -> 0 <= z <= U64_MAX.
Proof. unfold u64b. lia. Qed.

Theorem inv_exec w o w' : Inv w -> exec w o = Ok w' -> Inv w'.
Proof.
  intros I H. unfold exec in H. apply bind_ok in H. destruct H as (u & A & H). apply require_ok in A.
  destruct o; simpl in A; repeat rewrite andb_true_iff in A;
    repeat match goal with X : _ /\ _ |- _ => destruct X end;
    repeat match goal with X : u64b _ = true |- _ => apply u64b_ok in X; destruct X end.
  - eapply inv_swap; eauto.
  - eapply inv_partner with (b := maxb) (q := maxq); eauto.
  - eapply inv_creator with (b := maxb) (q := maxq); eauto.
  - eapply inv_protocol with (b := maxb) (q := maxq); eauto.
  - eapply inv_zap with (m := maxa); eauto.
  - eapply inv_partner_surplus; eauto.
  - eapply inv_creator_surplus; eauto.
  - eapply inv_migration_fee; eauto.
  - eapply inv_leftover; eauto.
  - eapply inv_partner_cf; eauto.
  - eapply inv_protocol_cf; eauto.
  - eapply inv_transfer_creator; eauto.
  - eapply inv_locker; eauto.
  - eapply inv_metadata; eauto.
  - eapply inv_migrate_v1 with (lp := lp); eauto.
  - eapply inv_migrate_v2; eauto.
  - eapply inv_lock_lp; eauto.
  - eapply inv_claim_lp; eauto.
  - unfold create_operator in H. minv. eapply inv_mono; eauto; simpl; lia.
  - unfold close_operator in H. minv. eapply inv_mono; eauto; simpl; lia.
  - unfold recv_base in H. minv. eapply inv_mono; eauto; simpl; lia.
  - unfold recv_quote in H. minv. eapply inv_mono; eauto; simpl; lia.
  - apply Ok_inj in H. subst w'. eapply inv_mono; eauto; simpl; lia.
  - minv. eapply inv_mono; eauto; simpl; lia.
  - minv. eapply inv_mono; eauto; simpl; lia.
Qed.

Lemma inv_step w o : Inv w -> Inv (step w o).
Proof. intros I. unfold step. destruct (exec w o) eqn:E; auto. eapply inv_exec; eauto. Qed.

Lemma inv_run ops : forall w, Inv w -> Inv (run w ops).
Proof.
  induction ops as [|o ops IH]; intros w I; [exact I|].
  unfold run. simpl. apply IH. apply inv_step, I.
Qed.

Theorem reachable_inv w : reachable w -> Inv w.
Proof. intros (w0 & ops & I & ->). apply inv_run. apply initial_inv, I. Qed.
