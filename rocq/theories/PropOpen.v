(** * The pool a curve migrates into: its opening price and its positions (C58, C59). *)
From Coq Require Import ZArith QArith List Bool Lia ZifyBool.
From Verif Require Import Base MathModel CurveModel FeeModel ConfigModel PoolModel TxModel SystemModel Spec
  Lib CurveProofs CurveLoops Potential CalcProofs ConfigProofs FeeProofs SwapProofs InvProofs InvOps InvReach
  Fixtures FixturesReach Effects Frame PropLife Bounds PropMath PropConfig PropVest PropMig.
Import ListNotations.
Open Scope Z_scope.
#[local] Arguments Z.pow : simpl never.
#[local] Arguments Z.testbit : simpl never.
#[local] Arguments unless : simpl never.

(** ** Specification *)

(** [base] and [quote] tokens are in the proportion of the square root price [p] (64 fractional
    bits: one base token is worth [p^2 / 2^128] quote tokens), up to rounding by one unit of quote
    one way and two units of base the other way. *)
Definition at_price (p base quote : Z) : Prop :=
  (quote - 1) * 2 ^ 128 < base * p ^ 2 < quote * 2 ^ 128 + 2 * p ^ 2.

(** What is set aside for the new pool: an amount less the protocol's 0.2 percent, rounded down. *)
Definition less_protocol (a : Z) : Z := a - a * 20 / 10000.
Definition seed_base (c : config) : Z := less_protocol (c_base_threshold c).
Definition seed_quote (c : config) : Z := less_protocol (c_threshold c - migration_fee_total c).

(** ** Arithmetic *)
Lemma less_protocol_bounds a : 0 <= a ->
  9980 * a <= 10000 * less_protocol a < 9980 * a + 10000 /\ 0 <= less_protocol a <= a.
Proof.
  intros H. unfold less_protocol. pose proof (Z.div_mod (a * 20) 10000 ltac:(lia)) as E.
  pose proof (Z.mod_pos_bound (a * 20) 10000 ltac:(lia)) as M. lia.
Qed.

Lemma at_price_of p B Q : 0 < p -> 0 <= B -> 0 <= Q ->
  (B - 1) * p ^ 2 < Q * 2 ^ 128 <= B * p ^ 2 -> at_price p (less_protocol B) (less_protocol Q).
Proof.
  intros P HB HQ (L & U). unfold at_price.
  destruct (less_protocol_bounds B HB) as ((B1 & B2) & B3). destruct (less_protocol_bounds Q HQ) as ((Q1 & Q2) & Q3).
  set (eb := less_protocol B) in *. set (eq := less_protocol Q) in *. clearbody eb eq.
  assert (P2 : 0 < p ^ 2) by (apply Z.pow_pos_nonneg; lia). set (pp := p ^ 2) in *. clearbody pp.
  set (T := 2 ^ 128) in *. assert (TP : 0 < T) by reflexivity. clearbody T.
  assert (X1 : 9980 * (B * pp) <= 10000 * (eb * pp)).
  { replace (9980 * (B * pp)) with ((9980 * B) * pp) by ring. replace (10000 * (eb * pp)) with ((10000 * eb) * pp) by ring.
    apply Z.mul_le_mono_nonneg_r; lia. }
  assert (X2 : 10000 * (eb * pp) < 9980 * (B * pp) + 10000 * pp).
  { replace (10000 * (eb * pp)) with ((10000 * eb) * pp) by ring.
    replace (9980 * (B * pp) + 10000 * pp) with ((9980 * B + 10000) * pp) by ring. apply Z.mul_lt_mono_pos_r; lia. }
  assert (Y1 : 9980 * (Q * T) <= 10000 * (eq * T)).
  { replace (9980 * (Q * T)) with ((9980 * Q) * T) by ring. replace (10000 * (eq * T)) with ((10000 * eq) * T) by ring.
    apply Z.mul_le_mono_nonneg_r; lia. }
  assert (Y2 : 10000 * (eq * T) < 9980 * (Q * T) + 10000 * T).
  { replace (10000 * (eq * T)) with ((10000 * eq) * T) by ring.
    replace (9980 * (Q * T) + 10000 * T) with ((9980 * Q + 10000) * T) by ring. apply Z.mul_lt_mono_pos_r; lia. }
  replace ((B - 1) * pp) with (B * pp - pp) in L by ring. replace ((eq - 1) * T) with (eq * T - T) by ring. lia.
Qed.

(** ** The amounts of a constant-product migration *)
Lemma product_base q p b : 0 <= q -> 0 < p -> constant_product_base q p = Ok b ->
  (b - 1) * p ^ 2 < q * 2 ^ 128 <= b * p ^ 2.
Proof.
  intros Q P H. unfold constant_product_base in H. apply bind_ok in H. destruct H as (pp & E & H).
  apply smul_ok in E. destruct E as (-> & _). apply bind_ok in H. destruct H as (u & _ & H). cbv zeta in H.
  apply bind_ok in H. destruct H as (u2 & _ & H). apply scast_ok in H. destruct H as (-> & _).
  replace (p ^ 2) with (p * p) by ring. change Q128 with (2 ^ 128).
  assert (D : 0 < p * p) by nia. pose proof (ceil_frac_cdiv (q * 2 ^ 128) (p * p) D) as (A & B). lia.
Qed.

Lemma seed_amounts w fb fq eb eq : reachable w -> mig_handler (w_config w) = Compounding ->
  migration_split w Compounding = Ok (fb, fq, eb, eq) ->
  eb = seed_base (w_config w) /\ eq = seed_quote (w_config w)
  /\ at_price (c_mig_price (w_config w)) eb eq.
Proof.
  intros R HH S. pose proof (reachable_inv _ R) as I. pose proof (created_cfg_ok _ (iv_created _ I)) as K.
  destruct (created_mig _ (iv_created _ I)) as (qa & AM & _ & _). fold (mig_handler (w_config w)) in AM.
  rewrite HH in AM. destruct (split_ok _ _ _ _ _ _ I S) as (ib & iq & -> & -> & FB & FQ & IQ & _ & IB & _ & PF).
  specialize (IB eq_refl). subst ib.
  unfold migration_protocol_fees in PF. apply bind_ok in PF. destruct PF as (x & X & PF). apply mul_div_cast_down in X.
  apply bind_ok in PF. destruct PF as (y & Y & PF). apply mul_div_cast_down in Y. apply Ok_inj in PF.
  apply pair_inj in PF. destruct PF as (<- & <-). destruct X as (-> & _), Y as (-> & _).
  change PROTOCOL_LIQUIDITY_MIGRATION_FEE_BPS with 20 in *. change BASIS_POINT_MAX with 10000 in *.
  unfold seed_base, seed_quote. rewrite <- IQ. split; [reflexivity|]. split; [reflexivity|].
  pose proof (ok_base _ K) as KB. pose proof (ok_start_min _ K) as KS. pose proof (co_mig_lo _ _ (ok_curve _ K)) as KL.
  assert (M0 : 0 < MIN_SQRT_PRICE) by reflexivity.
  pose proof (ok_threshold _ K) as KT.
  unfold migration_amounts_1 in AM. apply bind_ok in AM. destruct AM as ([q f] & Q & AM).
  apply (mig_quote_eq _ _ _ K) in Q. destruct Q as (-> & _ & Q0 & _). cbn [fst] in AM.
  apply bind_ok in AM. destruct AM as (b & CB & AM). apply Ok_inj in AM. inversion AM; subst b qa; clear AM.
  rewrite IQ. apply at_price_of; try lia. apply product_base; try lia. exact CB.
Qed.

(** ** A concentrated migration: the base tokens set aside are never the bottleneck *)
Lemma seed_liquidity w fb fq eb eq l : reachable w -> p_progress (w_pool w) = 2 ->
  mig_handler (w_config w) = Concentrated -> migration_split w Concentrated = Ok (fb, fq, eb, eq) ->
  concentrated_initial_liquidity eb eq (c_mig_price (w_config w)) = Ok l ->
  let d := c_mig_price (w_config w) - MIN_SQRT_PRICE in
  eq = seed_quote (w_config w) /\ l * d <= eq * 2 ^ 128 < (l + 1) * d.
Proof.
  intros R P HH S C d. pose proof (reachable_inv _ R) as I. pose proof (created_cfg_ok _ (iv_created _ I)) as K.
  destruct (created_mig _ (iv_created _ I)) as (qa & AM & _ & _). fold (mig_handler (w_config w)) in AM.
  rewrite HH in AM. destruct (split_ok _ _ _ _ _ _ I S) as (ib & iq & -> & -> & FB & FQ & IQ & _ & _ & IB & PF).
  specialize (IB eq_refl).
  pose proof (iv_base _ I) as BO. unfold base_owed in BO. rewrite P in BO. cbn [Z.eqb Pos.eqb] in BO.
  assert (IBT : c_base_threshold (w_config w) <= ib) by lia. clear BO IB.
  pose proof (ok_base _ K) as KB. pose proof (ok_start_min _ K) as KS. pose proof (co_mig_lo _ _ (ok_curve _ K)) as KL.
  pose proof (ok_mig_max _ K) as KM. assert (M0 : 0 < MIN_SQRT_PRICE) by reflexivity.
  set (p := c_mig_price (w_config w)) in *. assert (PR : MIN_SQRT_PRICE < p < MAX_SQRT_PRICE) by lia.
  unfold migration_protocol_fees in PF. apply bind_ok in PF. destruct PF as (y & Y & PF). apply mul_div_cast_down in Y.
  apply bind_ok in PF. destruct PF as (l' & L' & PF). apply bind_ok in PF. destruct PF as (x & X & PF).
  apply Ok_inj in PF. apply pair_inj in PF. destruct PF as (<- & <-).
  unfold migration_amounts_1 in AM. apply bind_ok in AM. destruct AM as ([q f] & Q & AM).
  apply (mig_quote_eq _ _ _ K) in Q. destruct Q as (-> & _ & Q0 & _). cbn [fst] in AM. rewrite <- IQ in *.
  apply bind_ok in AM. destruct AM as (l0 & L0 & AM). apply bind_ok in AM. destruct AM as (b & B & AM).
  apply bind_ok in AM. destruct AM as (u & _ & AM). apply bind_ok in AM. destruct AM as (b' & B' & AM).
  apply scast_ok in B'. destruct B' as (-> & _). apply Ok_inj in AM. inversion AM; subst b qa; clear AM u.
  unfold liquidity_from_delta_quote in L', L0. rewrite ssub_intro in L', L0 by lia. cbn [bind] in L', L0.
  rewrite sdiv_intro in L', L0 by lia. cbn [bind] in L', L0. apply scast_ok in L', L0.
  destruct L' as (-> & _), L0 as (-> & _). fold d in B, X.
  apply delta_base_256_ok in B. destruct B as (_ & B1 & B2 & _). cbn [divr] in B2.
  apply delta_base_ok in X. destruct X as (_ & _ & X & _). cbn [divr] in X.
  split. { unfold seed_quote, less_protocol. destruct Y as (-> & _). rewrite <- IQ. reflexivity. }
  assert (D : 0 < d) by (unfold d; lia).
  assert (E1 : 0 <= iq - y) by lia. assert (E0 : 0 <= ib - x) by lia.
  apply concentrated_exact in C; try lia. destruct C as (_ & C). fold d in C. change Q128 with (2 ^ 128) in *.
  split; [apply C; lia|]. destruct (Z_lt_le_dec ((iq - y) * 2 ^ 128) ((l + 1) * d)) as [|BAD]; [assumption|exfalso].
  assert (l + 1 <= l); [|lia]. apply C. split; [|exact BAD].
  set (T := 2 ^ 128) in *. clearbody T. set (N := p * MAX_SQRT_PRICE) in *. set (M := MAX_SQRT_PRICE - p) in *.
  assert (M1 : 0 < M) by (unfold M; lia).
  assert (LE : l + 1 <= iq * T / d - y * T / d).
  { assert (LL : l + 1 + y * T / d <= iq * T / d); [|lia]. apply div_ge; [exact D|].
    pose proof (div_lb (y * T) d D). replace ((l + 1 + y * T / d) * d) with ((l + 1) * d + y * T / d * d) by ring.
    replace ((iq - y) * T) with (iq * T - y * T) in BAD by ring. lia. }
  set (a := iq * T / d) in *. set (e := y * T / d) in *. clearbody a e.
  pose proof (cdiv_ub (a * M) N B1) as CU. rewrite <- B2 in CU. pose proof (div_lb (e * M) N B1) as XL. rewrite <- X in XL.
  apply Z.le_trans with ((a - e) * M); [apply Z.mul_le_mono_nonneg_r; lia|].
  replace ((a - e) * M) with (a * M - e * M) by ring. replace ((ib - x) * N) with (ib * N - x * N) by ring.
  assert (c_base_threshold (w_config w) * N <= ib * N) by (apply Z.mul_le_mono_nonneg_r; lia). lia.
Qed.

(** ** C58 *)

(** DAMM v1: the tokens deposited are in the proportion of the price at which the curve ended. *)
Theorem C58_damm_v1_deposit : forall w ok lp w', reachable w -> exec w (OMigrateV1 ok lp) = Ok w' ->
  let c := w_config w in
  exists rest,
  w_log w' = w_log w ++ mkTransfer TBase PPool PDamm (seed_base c) :: mkTransfer TQuote PPool PDamm (seed_quote c) :: rest
  /\ (forall t, In t rest -> t_to t = PMint)
  /\ at_price (c_mig_price c) (seed_base c) (seed_quote c).
Proof.
  intros w ok lp w' R H c. pose proof (exec_args _ _ _ H) as A. unfold exec in H. rewrite A in H. cbn [require bind] in H.
  apply migrate_v1_eff in H. destruct H as (m & m' & fb & fq & eb & eq & b & mb & _ & _ & O & _ & S & E & _).
  assert (HH : mig_handler c = Compounding).
  { unfold mig_handler, get_migration_handler. unfold c. rewrite O. reflexivity. }
  destruct (seed_amounts _ _ _ _ _ R HH S) as (-> & -> & AP). exists (burned b).
  split; [exact (ef_log _ _ _ _ E)|]. split; [|exact AP].
  intros t T. unfold burned in T. destruct (0 <? b); [|destruct T]. destruct T as [<-|[]]. reflexivity.
Qed.

(** What a DAMM v2 migration leaves behind. *)
Lemma migrate_v2_positions w x now w' : migrate_v2 w x now = Ok w' ->
  let c := w_config w in
  exists h fb fq eb eq price liq dead pa cr tp tc first second o1 o2 t1 vp1 rest,
    h = get_migration_handler 1 (c_migrated_collect_mode c)
    /\ p_progress (w_pool w) = 2 /\ c_migration_option c = 1
    /\ migration_split w h = Ok (fb, fq, eb, eq)
    /\ initial_pool_information h (c_mig_price c) eb eq = Ok (price, liq, dead)
    /\ get_liquidity_distribution c liq = Ok (pa, cr) /\ li_total pa = Ok tp /\ li_total cr = Ok tc
    /\ (first, second, o1, o2) = (if tc <? tp then (pa, cr, c_fee_claimer c, p_creator (w_pool w))
                                  else (cr, pa, p_creator (w_pool w), c_fee_claimer c))
    /\ li_total first = Ok t1 /\ lock_params first now = Ok vp1
    /\ w_positions w' = mkPosition o1 (t1 + dead) (li_perm first) (li_vested first) vp1 price :: rest
    /\ ((rest = [] /\ exists liq2, liq2 <= 0
         /\ calculate_liquidity_delta h (c_mig_price c) (eb - x_d1b x) (eq - x_d1q x) (x_rbase x) (x_rquote x) (x_rliq x) = Ok liq2)
        \/ exists liq2 sec vp2, 0 < liq2
         /\ calculate_liquidity_delta h (c_mig_price c) (eb - x_d1b x) (eq - x_d1q x) (x_rbase x) (x_rquote x) (x_rliq x) = Ok liq2
         /\ adjust_liquidity second liq2 = Ok sec /\ lock_params sec now = Ok vp2
         /\ rest = [mkPosition o2 liq2 (li_perm sec) (li_vested sec) vp2 price]).
Proof.
  intros H c. unfold migrate_v2 in H.
  apply bind_ok in H. destruct H as (u0 & _ & H).
  apply bind_ok in H. destruct H as ([] & R & H). cbv zeta in H. fold c in H.
  apply ready_ok in R. destruct R as (P & _ & O).
  apply bind_ok in H. destruct H as (u2 & _ & H).
  set (h := get_migration_handler 1 (c_migrated_collect_mode c)) in *.
  apply bind_ok in H. destruct H as ([[[fb fq] eb] eq] & S & H).
  apply bind_ok in H. destruct H as ([[price liq] dead] & INF & H).
  apply bind_ok in H. destruct H as ([pa cr] & D & H).
  apply bind_ok in H. destruct H as (tp & TP & H).
  apply bind_ok in H. destruct H as (tc & TC & H).
  change (p_creator (set_mig_quote_fee (set_mig_base_fee (w_pool w) fb) fq)) with (p_creator (w_pool w)) in H.
  destruct (if tc <? tp then _ else _) as [[[first second] o1] o2] eqn:OR.
  apply bind_ok in H. destruct H as (t1 & T1 & H).
  apply bind_ok in H. destruct H as (liq1 & L1 & H). apply sadd_ok in L1. destruct L1 as (-> & _).
  apply bind_ok in H. destruct H as (vp1 & V1 & H).
  apply bind_ok in H. destruct H as (u3 & G1 & H).
  apply bind_ok in H. destruct H as (w1 & W1 & H).
  apply bind_ok in H. destruct H as (w2 & W2 & H).
  apply bind_ok in H. destruct H as (lb & LB & H). apply ssub_ok in LB. destruct LB as (-> & LB).
  apply bind_ok in H. destruct H as (lq & LQ & H). apply ssub_ok in LQ. destruct LQ as (-> & LQ).
  apply bind_ok in H. destruct H as (liq2 & L2 & H).
  apply bind_ok in H. destruct H as (w3 & W3 & H).
  apply bind_ok in H. destruct H as (w6 & W6 & H). apply Ok_inj in H.
  apply burn_rest_eff in W6.
  destruct W6 as (b & mb & E5 & SU & BU & BM & _ & MA & ES & UA & ME & LP & PO & AD & OP).
  exists h, fb, fq, eb, eq, price, liq, dead, pa, cr, tp, tc, first, second, o1, o2, t1, vp1.
  exists (tl (w_positions w')).
  split; [reflexivity|]. split; [exact P|]. split; [exact O|]. split; [exact S|]. split; [exact INF|].
  split; [exact D|]. split; [exact TP|]. split; [exact TC|]. split; [symmetry; exact OR|]. split; [exact T1|].
  split; [exact V1|].
  assert (PW : w_positions w' = w_positions w3) by (subst w'; exact PO). rewrite PW.
  destruct (0 <? liq2) eqn:L2P.
  - apply bind_ok in W3. destruct W3 as (s2 & AJ & W3).
    apply bind_ok in W3. destruct W3 as (b1 & _ & W3).
    apply bind_ok in W3. destruct W3 as (vp2 & V2 & W3).
    apply bind_ok in W3. destruct W3 as (b3 & _ & W3).
    apply bind_ok in W3. destruct W3 as (y1 & _ & W3).
    apply bind_ok in W3. destruct W3 as (y2 & _ & W3). apply Ok_inj in W3. rewrite <- W3. cbn [w_positions set_w_positions tl].
    split; [reflexivity|]. right. exists liq2, s2, vp2. split; [lia|]. auto.
  - apply Ok_inj in W3. rewrite <- W3. cbn [w_positions set_w_positions tl]. split; [reflexivity|]. left.
    split; [reflexivity|]. exists liq2. split; [lia|exact L2].
Qed.

(** DAMM v2: the price given to the new pool. A concentrated pool opens exactly at the price at which
    the curve ended; a constant-product pool at the square root of the ratio of the tokens set aside,
    which is that price up to the rounding of those tokens. *)
Theorem C58_damm_v2_price : forall w x now w', reachable w -> exec w (OMigrateV2 x now) = Ok w' ->
  let c := w_config w in let p := c_mig_price c in
  w_positions w' <> [] /\ forall po, In po (w_positions w') ->
  (c_migrated_collect_mode c <> 2 -> po_price po = p)
  /\ (c_migrated_collect_mode c = 2 ->
      let s := po_price po in let b := seed_base c in
      0 < b /\ p ^ 2 * (b - 2) < (s + 1) ^ 2 * b /\ s ^ 2 * b < (p ^ 2 + 1) * b + 2 ^ 128
      /\ 100 * Z.abs (s - p) <= Z.max s p).
Proof.
  intros w x now w' R H c p. pose proof (exec_args _ _ _ H) as A. unfold exec in H. rewrite A in H. cbn [require bind] in H.
  apply migrate_v2_positions in H. fold c in H.
  destruct H as (h & fb & fq & eb & eq & price & liq & dead & pa & cr & tp & tc & first & second & o1 & o2 & t1 & vp1
    & rest & HD & P2 & O & S & INF & _ & _ & _ & _ & _ & _ & PS & RS).
  split; [rewrite PS; discriminate|]. intros po IN.
  assert (PP : po_price po = price).
  { rewrite PS in IN. destruct IN as [<-|IN]; [reflexivity|]. destruct RS as [(-> & _)|(l2 & sec & vp2 & _ & _ & _ & _ & ->)]; [destruct IN|].
    destruct IN as [<-|[]]. reflexivity. }
  rewrite PP. clear PP IN PS RS.
  assert (HH : mig_handler c = h). { rewrite HD. unfold mig_handler. rewrite O. reflexivity. }
  assert (HC : h = if c_migrated_collect_mode c =? 2 then Compounding else Concentrated) by (rewrite HD; reflexivity).
  fold p in INF. split.
  - intros M. replace (c_migrated_collect_mode c =? 2) with false in HC by lia. rewrite HC in INF.
    unfold initial_pool_information in INF. apply bind_ok in INF. destruct INF as (l & _ & INF).
    apply Ok_inj in INF. congruence.
  - intros M. rewrite M in HC. cbn [Z.eqb Pos.eqb] in HC. rewrite HC in HH, S, INF.
    destruct (split_exists w R P2) as (fb' & fq' & eb' & eq' & S' & EB & EQ & _ & CV). fold c in S', CV. rewrite HH in S', CV.
    rewrite S in S'. apply Ok_inj in S'. inversion S'; subst fb' fq' eb' eq'; clear S'.
    specialize (CV O eq_refl). fold p in CV.
    destruct (seed_amounts _ _ _ _ _ R HH S) as (SB & _ & AP). fold c in AP, SB. fold p in AP. cbv zeta. rewrite <- SB.
    unfold initial_pool_information in INF. apply bind_ok in INF. destruct INF as ([s l] & CP & INF).
    destruct (compounding_price_and_liquidity eb eq) as [[s' l']|] eqn:CPL; [|discriminate]. apply Ok_inj in CP.
    inversion CP; subst s' l'; clear CP. apply bind_ok in INF. destruct INF as (d & _ & INF). apply Ok_inj in INF.
    inversion INF; subst s liq dead; clear INF.
    unfold compounding_validate in CV. rewrite CPL in CV. cbn [ok_or bind] in CV.
    apply bind_ok in CV. destruct CV as (u1 & _ & CV). apply bind_ok in CV. destruct CV as (u2 & _ & CV).
    apply bind_ok in CV. destruct CV as (m & MU & CV). apply smul_ok in MU. destruct MU as (-> & _). apply require_ok in CV.
    split; [lia|].
    pose proof CPL as CPL'. unfold compounding_price_and_liquidity in CPL'. destruct (eb =? 0) eqn:E0; [discriminate|].
    destruct (sqrt_u256 (cdiv (eq * Q128) eb)) as [r1|] eqn:SQ; [|discriminate].
    destruct (U128_MAX <? r1); [discriminate|]. destruct (_ || _); [discriminate|].
    destruct (sqrt_u256 (eq * Q128 / eb)) as [r2|]; [|discriminate]. destruct (U128_MAX <? r2); [discriminate|].
    destruct (r2 * eb <=? U128_MAX); [|discriminate]. injection CPL' as E1 _. subst r1.
    assert (ED : 0 < eb) by lia. pose proof Q128_pos as QP.
    apply sqrt_value in SQ.
    2:{ split; [apply cdiv_nonneg; nia|]. apply cdiv_le; [lia|]. unfold Q128, U256_MAX, U64_MAX in *. nia. }
    pose proof (cdiv_ub (eq * Q128) eb ED) as CU. pose proof (ceil_frac_cdiv (eq * Q128) eb ED) as (_ & CL).
    set (k := cdiv (eq * Q128) eb) in *. clearbody k. unfold at_price in AP. change (2 ^ 128) with Q128 in *.
    replace ((price + 1) ^ 2) with ((price + 1) * (price + 1)) by ring. replace (price ^ 2) with (price * price) by ring.
    destruct SQ as (SQ0 & SQ1 & SQ2). set (pp := p ^ 2) in *. clearbody pp.
    assert (K1 : k * eb < (price + 1) * (price + 1) * eb) by (apply Z.mul_lt_mono_pos_r; lia).
    assert (K2 : price * price * eb <= k * eb) by (apply Z.mul_le_mono_nonneg_r; lia).
    split; [lia|]. split; lia.
Qed.

(** ** C59: who holds the liquidity of the new pool, and how it is locked *)

(** A party's part of the liquidity: its owner, the free, permanently locked and vested amounts, and
    the percentages of the last two. *)
Record due := mkDue { du_owner : Z; du_free : Z; du_perm : Z; du_vested : Z; du_perm_pct : Z; du_vesting : liq_vesting }.
Definition du_total (d : due) : Z := du_free d + du_perm d + du_vested d.
Definition percent (a k : Z) : Z := a * k / 100.

Definition partner_due (w : world) (liq : Z) : due :=
  let c := w_config w in
  mkDue (c_fee_claimer c) (percent liq (c_partner_liq_pct c)) (percent liq (c_partner_perm_pct c))
    (percent liq (vi_percentage (c_partner_vesting c))) (c_partner_perm_pct c) (c_partner_vesting c).
Definition creator_due (w : world) (liq : Z) : due :=
  let c := w_config w in
  let perm := percent liq (c_creator_perm_pct c) in
  let vested := percent liq (vi_percentage (c_creator_vesting c)) in
  mkDue (p_creator (w_pool w)) (liq - du_total (partner_due w liq) - perm - vested) perm vested
    (c_creator_perm_pct c) (c_creator_vesting c).

(** The vested part of a position follows a schedule: C45 says what the parameters mean. *)
Definition follows (po : position) (v : liq_vesting) (now : Z) : Prop :=
  (po_vested po = 0 -> po_vesting po = None)
  /\ (0 < po_vested po -> exists vp, po_vesting po = Some vp /\ damm_v2_vesting_parameters v (po_vested po) now = Ok vp).

Lemma lock_follows i now vp o t p : 0 <= li_perm i -> 0 <= li_vested i -> lock_params i now = Ok vp ->
  follows (mkPosition o t (li_perm i) (li_vested i) vp p) (li_vesting i) now.
Proof.
  intros H0 H1 H. unfold lock_params in H. apply bind_ok in H. destruct H as (l & L & H). unfold li_locked in L.
  apply sadd_ok in L. destruct L as (-> & _). unfold follows. cbn [po_vested po_vesting].
  destruct (0 <? li_perm i + li_vested i) eqn:E.
  - destruct (0 <? li_vested i) eqn:E1.
    + apply bind_ok in H. destruct H as (q & Q & H). apply Ok_inj in H. subst vp. split; [lia|]. eauto.
    + apply Ok_inj in H. subst vp. split; [auto|lia].
  - apply Ok_inj in H. subst vp. split; [auto|lia].
Qed.

(** The liquidity shared out. Concentrated pool: all the quote set aside, at the opening price.
    Constant-product pool: the square root of the product, of which a fixed part is dead. *)
Definition shared_liquidity (c : config) (liq dead : Z) : Prop :=
  if c_migrated_collect_mode c =? 2 then
    dead = 100 * 2 ^ 64
    /\ exists s, 0 <= s /\ liq + dead = s * seed_base c
       /\ s ^ 2 * seed_base c <= seed_quote c * 2 ^ 128 < (s + 1) ^ 2 * seed_base c
  else
    dead = 0
    /\ liq * (c_mig_price c - MIN_SQRT_PRICE) <= seed_quote c * 2 ^ 128
       < (liq + 1) * (c_mig_price c - MIN_SQRT_PRICE).

Record is_due (i : liq_item) (d : due) : Prop := mkIsDue {
  id_free : li_unlocked i = du_free d; id_perm : li_perm i = du_perm d; id_vested : li_vested i = du_vested d;
  id_pct : li_perm_pct i = du_perm_pct d; id_vesting : li_vesting i = du_vesting d;
  id_free0 : 0 <= li_unlocked i; id_perm0 : 0 <= li_perm i; id_vested0 : 0 <= li_vested i;
  id_vpct0 : 0 <= vi_percentage (li_vesting i); id_pct0 : 0 <= li_perm_pct i;
  id_sum : vi_percentage (li_vesting i) + li_perm_pct i <= 100 }.

Lemma dues w liq pa cr : created (w_config w) -> 0 <= liq <= U128_MAX ->
  get_liquidity_distribution (w_config w) liq = Ok (pa, cr) ->
  is_due pa (partner_due w liq) /\ is_due cr (creator_due w liq)
  /\ li_total pa = Ok (du_total (partner_due w liq)) /\ li_total cr = Ok (du_total (creator_due w liq)).
Proof.
  intros C L D. destruct (C26_distribution_complete _ _ C L) as (pa' & cr' & D' & A1 & A2 & A3 & A4 & A5 & A6 & S & T1 & T2).
  rewrite D in D'. apply Ok_inj in D'. inversion D'; subst pa' cr'; clear D'.
  destruct (dist_fields _ _ _ _ D) as (F1 & F2 & F3 & F4).
  destruct (dist_shares _ _ C L) as (pa' & cr' & D' & SH & _). rewrite D in D'. apply Ok_inj in D'.
  inversion D'; subst pa' cr'; clear D'.
  destruct (SH pa ltac:(auto)) as (P1 & P2 & P3 & _ & P4 & P5 & P6 & P7).
  destruct (SH cr ltac:(auto)) as (R1 & R2 & R3 & _ & R4 & R5 & R6 & R7).
  assert (E : li_unlocked cr = liq - du_total (partner_due w liq) - li_perm cr - li_vested cr).
  { unfold du_total, partner_due, percent. cbn [du_free du_perm du_vested]. lia. }
  split; [|split; [|split]].
  - constructor; auto.
  - constructor; auto. rewrite E. unfold creator_due, percent. cbn [du_free]. rewrite A4, A5. reflexivity.
  - rewrite T1, A1, A2, A3. reflexivity.
  - rewrite T2. f_equal. unfold du_total at 1, creator_due, percent. cbn [du_free du_perm du_vested]. rewrite E, A4, A5. reflexivity.
Qed.

Lemma adjusted i adj i' : adjust_liquidity i adj = Ok i' -> li_vesting i' = li_vesting i.
Proof.
  unfold adjust_liquidity. intros ADJ. apply bind_ok in ADJ. destruct ADJ as (t & _ & ADJ).
  destruct (t =? 0); [apply Ok_inj in ADJ; subst; reflexivity|].
  repeat (apply bind_ok in ADJ; destruct ADJ as (? & _ & ADJ)). apply Ok_inj in ADJ. subst. reflexivity.
Qed.

(** The liquidity the program computes. *)
Lemma shared w fb fq eb eq price liq dead : reachable w -> p_progress (w_pool w) = 2 ->
  c_migration_option (w_config w) = 1 -> let h := mig_handler (w_config w) in
  migration_split w h = Ok (fb, fq, eb, eq) ->
  initial_pool_information h (c_mig_price (w_config w)) eb eq = Ok (price, liq, dead) ->
  0 <= liq <= U128_MAX /\ shared_liquidity (w_config w) liq dead.
Proof.
  intros R P O h S INF. pose proof (reachable_inv _ R) as I. pose proof (created_cfg_ok _ (iv_created _ I)) as K.
  pose proof (ok_start_min _ K) as KS. pose proof (co_mig_lo _ _ (ok_curve _ K)) as KL. pose proof (ok_mig_max _ K) as KM.
  destruct (split_exists w R P) as (fb' & fq' & eb' & eq' & S' & EB & EQ & _ & _). fold h in S'.
  rewrite S in S'. apply Ok_inj in S'. inversion S'; subst fb' fq' eb' eq'; clear S'.
  assert (HC : h = if c_migrated_collect_mode (w_config w) =? 2 then Compounding else Concentrated).
  { unfold h, mig_handler. rewrite O. reflexivity. }
  unfold shared_liquidity. fold h in S. destruct (c_migrated_collect_mode (w_config w) =? 2); rewrite HC in S, INF.
  - destruct (seed_amounts _ _ _ _ _ R HC S) as (SB & SQ & _). rewrite <- SB, <- SQ.
    unfold initial_pool_information in INF. destruct (compounding_price_and_liquidity eb eq) as [[s l]|] eqn:CPL; [|discriminate].
    cbn [ok_or bind] in INF. apply bind_ok in INF. destruct INF as (d & SS & INF). apply Ok_inj in INF.
    inversion INF; subst s d dead; clear INF. apply ssub_ok in SS. destruct SS as (-> & SS).
    destruct (compounding_value eb eq price l ltac:(lia) ltac:(lia) CPL) as (_ & _ & _ & _ & _ & LU & _).
    assert (DP : 0 < DEAD_LIQUIDITY) by reflexivity. split; [lia|]. split; [reflexivity|].
    unfold compounding_price_and_liquidity in CPL. destruct (eb =? 0) eqn:E0; [discriminate|].
    destruct (sqrt_u256 (cdiv (eq * Q128) eb)) as [r1|]; [|discriminate].
    destruct (U128_MAX <? r1); [discriminate|]. destruct (_ || _); [discriminate|].
    destruct (sqrt_u256 (eq * Q128 / eb)) as [r2|] eqn:SQR; [|discriminate]. destruct (U128_MAX <? r2); [discriminate|].
    destruct (r2 * eb <=? U128_MAX); [|discriminate]. injection CPL as _ <-. assert (ED : 0 < eb) by lia.
    pose proof Q128_pos as QP. pose proof (div_lb (eq * Q128) eb ED) as D1. assert (D2 : eq * Q128 < (eq * Q128 / eb + 1) * eb) by (apply div_lt; lia).
    apply sqrt_value in SQR.
    2:{ split; [apply div_nonneg; nia|]. apply Z.div_le_upper_bound; [lia|]. unfold Q128, U256_MAX, U64_MAX in *. nia. }
    exists r2. split; [lia|]. split; [lia|]. change (2 ^ 128) with Q128. set (f := eq * Q128 / eb) in *. clearbody f.
    replace (r2 ^ 2) with (r2 * r2) by ring. replace ((r2 + 1) ^ 2) with ((r2 + 1) * (r2 + 1)) by ring.
    destruct SQR as (_ & S1 & S2). split.
    + apply Z.le_trans with (f * eb); [apply Z.mul_le_mono_nonneg_r; lia|lia].
    + apply Z.lt_le_trans with ((f + 1) * eb); [lia|]. apply Z.mul_le_mono_nonneg_r; lia.
  - unfold initial_pool_information in INF. apply bind_ok in INF. destruct INF as (l & CI & INF). apply Ok_inj in INF.
    inversion INF; subst price l dead; clear INF. destruct (seed_liquidity _ _ _ _ _ _ R P HC S CI) as (SQ & B).
    apply concentrated_exact in CI; [|lia|lia|lia]. destruct CI as (CI & _). split; [exact CI|]. split; [reflexivity|].
    rewrite <- SQ. exact B.
Qed.

Theorem C59_positions : forall w x now w', reachable w -> exec w (OMigrateV2 x now) = Ok w' ->
  exists liq dead, 0 <= liq /\ shared_liquidity (w_config w) liq dead /\
  let p := partner_due w liq in let c := creator_due w liq in
  let big := if du_total c <? du_total p then p else c in
  let small := if du_total c <? du_total p then c else p in
  exists first rest, w_positions w' = first :: rest
  (* the first position belongs to the party due more, with exactly what it is due, and holds the
     dead liquidity *)
  /\ po_owner first = du_owner big /\ po_total first = du_total big + dead
  /\ po_perm first = du_perm big /\ po_vested first = du_vested big
  /\ follows first (du_vesting big) now
  (* the second, if any liquidity is left for it, belongs to the other party; the difference with
     what it is due falls on its locked part, unless it has none *)
  /\ (rest = [] \/ exists second, rest = [second]
       /\ po_owner second = du_owner small /\ 0 < po_total second
       /\ 0 <= po_perm second /\ 0 <= po_vested second /\ po_perm second + po_vested second <= po_total second
       /\ follows second (du_vesting small) now
       /\ (let locked := po_perm second + po_vested second in
           let free := po_total second - locked in
           let vp := vi_percentage (du_vesting small) in let lp := vp + du_perm_pct small in
           (lp = 0 -> locked = 0)
           /\ (0 < lp -> free <= du_free small /\ (0 < locked -> free = du_free small)
                /\ po_vested second = locked * vp / lp))).
Proof.
  intros w x now w' R H. pose proof (exec_args _ _ _ H) as A. unfold exec in H. rewrite A in H. cbn [require bind] in H.
  apply migrate_v2_positions in H. cbv zeta in H.
  destruct H as (h & fb & fq & eb & eq & price & liq & dead & pa & cr & tp & tc & first & second & o1 & o2 & t1 & vp1
    & rest & HD & P2 & O & S & INF & D & TP & TC & OR & T1 & V1 & PS & RS).
  assert (HH : mig_handler (w_config w) = h). { rewrite HD. unfold mig_handler. rewrite O. reflexivity. }
  rewrite <- HH in S, INF. destruct (shared _ _ _ _ _ _ _ _ R P2 O S INF) as (LB & SL).
  exists liq, dead. split; [lia|]. split; [exact SL|]. cbv zeta.
  pose proof (iv_created _ (reachable_inv _ R)) as C.
  destruct (dues w liq pa cr C LB D) as (DP & DC & TP' & TC'). rewrite TP in TP'. rewrite TC in TC'.
  apply Ok_inj in TP', TC'. subst tp tc.
  set (big := if _ <? _ then partner_due w liq else creator_due w liq).
  set (small := if _ <? _ then creator_due w liq else partner_due w liq).
  assert (FS : is_due first big /\ is_due second small /\ o1 = du_owner big /\ o2 = du_owner small /\ t1 = du_total big).
  { unfold big, small. destruct (_ <? _); inversion OR; subst; (split; [assumption|split; [assumption|split; [reflexivity|split; [reflexivity|congruence]]]]). }
  clear OR. clearbody big small. destruct FS as (F & G & -> & -> & ->).
  eexists _, rest. split; [exact PS|]. cbn [po_owner po_total po_perm po_vested].
  split; [reflexivity|]. split; [reflexivity|]. split; [apply (id_perm _ _ F)|]. split; [apply (id_vested _ _ F)|].
  split. { rewrite <- (id_vesting _ _ F). apply lock_follows; auto; apply F. }
  destruct RS as [(-> & _)|(l2 & sec & vp2 & L2 & CL & ADJ & V2 & ->)]; [left; reflexivity|right].
  eexists. split; [reflexivity|]. cbn [po_owner po_total po_perm po_vested].
  split; [reflexivity|]. split; [exact L2|].
  assert (L2U : l2 <= U128_MAX).
  { unfold calculate_liquidity_delta in CL. destruct h.
    - apply bind_ok in CL. destruct CL as (a & CA & CL). apply bind_ok in CL. destruct CL as (b & CB & CL).
      apply mul_div_cast128_down in CA. apply Ok_inj in CL. lia.
    - unfold concentrated_initial_liquidity in CL. apply bind_ok in CL. destruct CL as (a & CA & CL).
      apply bind_ok in CL. destruct CL as (b & CB & CL). unfold liquidity_from_delta_quote in CB.
      repeat (apply bind_ok in CB; destruct CB as (? & _ & CB)). apply scast_ok in CB.
      destruct (b <? a); [apply Ok_inj in CL; lia|]. apply scast_ok in CL. lia. }
  destruct (C27_adjust second l2 (id_free0 _ _ G) ltac:(lia) (id_vpct0 _ _ G) (id_pct0 _ _ G) (id_sum _ _ G))
    as (sec' & ADJ' & J1 & J2 & J3 & J4 & J5 & J6). rewrite ADJ in ADJ'. apply Ok_inj in ADJ'. subst sec'.
  rewrite (id_vesting _ _ G), (id_pct _ _ G), (id_free _ _ G) in *.
  split; [exact J2|]. split; [exact J3|]. split; [lia|].
  split. { pose proof (adjusted _ _ _ ADJ) as AV. rewrite (id_vesting _ _ G) in AV. rewrite <- AV. apply lock_follows; auto. }
  replace (l2 - (li_perm sec + li_vested sec)) with (li_unlocked sec) by lia. split; [intros Z0; specialize (J5 Z0); lia|exact J6].
Qed.

Example C58_case_v1 : reachable readyB
  /\ is_ok (exec readyB (OMigrateV1 true 123456789)) = true
  /\ seed_base (w_config readyB) = 31835822174223 /\ seed_quote (w_config readyB) = 99800000000.
Proof. split; [apply reachB|]. vm_compute. auto. Qed.

Example C59_case_concentrated :
  let x := mkExt true 20056568052905 62874000000 20056568052905 62874000000
       20714935219466573231265082605509 8595672022674 26946000000 true in
  reachable readyA /\ c_migrated_collect_mode (w_config readyA) <> 2
  /\ (do w' <- exec readyA (OMigrateV2 x 1700001000) ;; Ok (w_positions w')) = Ok [
       mkPosition 22 20714935219466573231265082605509 8877829379771388527685035402361 5918552919847592351790023601574
         (Some (mkVestingParams 1700004600 295927645992379617589501180078 2959276459923796175895011800794 86400 10)) 1032825514542432788;
       mkPosition 44 8877829379771388527685035402361 1479638229961898087947505900394 2959276459923796175895011800786
         (Some (mkVestingParams 1700087400 0 2959276459923796175895011800786 0 0)) 1032825514542432788].
Proof. split; [apply reachA|]. vm_compute. repeat split; congruence. Qed.

Example C59_case_compounding :
  let x := mkExt true 15917911088005 49900000003 15917911088005 49900000003
       16440424709908767768472114401107 15917911086092 49899999997 true in
  reachable readyC /\ c_migrated_collect_mode (w_config readyC) = 2
  /\ (do w' <- exec readyC (OMigrateV2 x 1700010000) ;; Ok (w_positions w')) = Ok [
       mkPosition 44 16440424709908767768472114401107 16440424708064093361101159239507 0 None 1032825514542420218;
       mkPosition 22 16440424707931963194253232780101 0 0 None 1032825514542420218].
Proof. split; [apply reachC|]. vm_compute. repeat split; congruence. Qed.

Print Assumptions C58_damm_v1_deposit.
Print Assumptions C58_damm_v2_price.
Print Assumptions C59_positions.
