(** * C101: fees cannot be dodged. However the trading is cut into trades, the fees of a history are at
    least the config's lowest rate and at most 99% of the volume, and four fifths of them go to partner and creator; rounding
    favours the pool in the first place, and partner and creator in the second. *)
From Coq Require Import ZArith QArith List Bool Lia ZifyBool.
From Verif Require Import Base MathModel CurveModel FeeModel ConfigModel PoolModel TxModel
  SystemModel Spec SpecHist Lib Potential FeeProofs SwapProofs InvProofs InvOps InvReach PropSwap
  PropMath PropSched PropLimiter PropRate PropFees Frame Fixtures FixturesReach PropCharge.
Import ListNotations.
Open Scope Z_scope.
#[local] Arguments Z.pow : simpl never.

(** ** Specification *)

(** A successful swap charged in token [t]. *)
Definition charged (t : token) (w : world) (o : op) : bool :=
  match o with
  | OSwap a => is_ok (exec w o) && same_token (charge_token (w_config w) (sa_dir a)) t
  | _ => false
  end.

(** A swap moves tokens at most three times: the payment, the receipt, the referrer's share. *)
Definition amount_at (n : nat) (l : list transfer) : Z :=
  match nth_error l n with Some x => t_amount x | None => 0 end.

(** What partner and creator, and what everybody, gain from a swap, in token [t]: the growth of what the pool
    holds for them, and the referrer's share. *)
Definition trading_gain (t : token) (w : world) (o : op) : Z :=
  if charged t w o
  then partner_fees t (w_pool (step w o)) + creator_fees t (w_pool (step w o))
       - (partner_fees t (w_pool w) + creator_fees t (w_pool w))
  else 0.
Definition fee_gain (t : token) (w : world) (o : op) : Z :=
  if charged t w o
  then trading_gain t w o + (protocol_fees t (w_pool (step w o)) - protocol_fees t (w_pool w))
       + amount_at 2 (moved w o)
  else 0.

(** The volume of a swap in the token it is charged in: the whole payment, or the receipt and the fee. *)
Definition volume (t : token) (w : world) (o : op) : Z :=
  match o with
  | OSwap a => if charged t w o
               then if same_token (token_in (sa_dir a)) t then amount_at 0 (moved w o)
                    else amount_at 1 (moved w o) + fee_gain t w o
               else 0
  | _ => 0
  end.

Definition count (t : token) (w : world) (o : op) : Z := if charged t w o then 1 else 0.

(** ** The lowest rate of a config: the one its schedule ends at *)
Lemma lowest_exists c : created c -> let b := pf_base (c_fees c) in
  exists mn, min_base_fee_numerator b = Ok mn /\ 2500000 <= mn <= 990000000 /\ scheduled b (bf_first b * bf_second b) mn.
Proof.
  intros C b. destruct (created_fees_ok c C) as [TB TD TC (mn & M & M2) _]. fold b in M, M2, TC.
  unfold MIN_FEE_NUMERATOR, MAX_FEE_NUMERATOR in *.
  exists mn. split; [exact M|]. split; [lia|].
  destruct (created_base c C) as (T & ac & _ & V). fold b in T, V.
  destruct (mode_cases c C) as [MO|[MO|MO]]; fold b in MO.
  - assert (SM : sched_min b = Ok mn) by (unfold min_base_fee_numerator in M; rewrite MO in M; exact M).
    left. split; [exact MO|].
    unfold sched_min, sched_by_period in SM. rewrite MO, Z.min_id in SM. change (0 =? 0) with true in SM. cbv iota in SM.
    apply bind_ok in SM. destruct SM as (x & X & SM). apply smul_ok in X. destruct X as (-> & _).
    apply ssub_ok in SM. destruct SM as (-> & _).
    assert (SV : sched_validate b = Ok tt) by (unfold base_fee_validate in V; rewrite MO in V; exact V).
    destruct (sched_validate_inv b T SV) as (_ & _ & _ & _ & Z).
    destruct Z as [(-> & -> & ->)|Z]; [reflexivity|]. rewrite Z.div_mul by lia. rewrite Z.min_id. reflexivity.
  - assert (SM : sched_min b = Ok mn) by (unfold min_base_fee_numerator in M; rewrite MO in M; exact M).
    assert (SV : sched_validate b = Ok tt) by (unfold base_fee_validate in V; rewrite MO in V; exact V).
    destruct (sched_validate_inv b T SV) as (_ & _ & _ & _ & Z).
    right; left. split; [exact MO|].
    destruct Z as [(Z1 & Z2 & Z3)|Z].
    + rewrite Z1, Z2, Z3. change (Z.min (0 * 0 / 0) 0) with 0. rewrite !Z.pow_0_r.
      assert (E : mn = bf_cliff b); [|lia].
      unfold sched_min, sched_by_period in SM. rewrite MO, Z1, Z3 in SM. cbn in SM.
      unfold get_fee_in_period in SM. cbn [bind Z.leb Z.compare Z.mul Z.div] in SM. apply bind_ok in SM. destruct SM as (pd & PD & SM). apply smul_ok in PD. destruct PD as (-> & _). apply scast_ok in SM. destruct SM as (-> & _). rewrite Z.mul_comm. apply Z.div_mul. discriminate.
    + destruct (C30_exponential_value c 0 (bf_first b * bf_second b) QuoteToBase 0 mn C MO) as (A & B).
      * destruct T as (T1 & T2 & T3 & T4 & T5). unfold u64ok, u16ok in *. nia.
      * fold b. rewrite (proj1 (base_num_sched b _ 0 QuoteToBase 0 (or_intror MO))).
        unfold sched_numerator. replace (bf_second b =? 0) with false by lia.
        rewrite ssub_intro by nia. cbn [bind]. rewrite Z.sub_0_r.
        unfold sdiv. replace (bf_second b =? 0) with false by lia. cbn [bind]. rewrite Z.div_mul by lia. exact SM.
      * fold b in A, B. rewrite Z.sub_0_r in A, B. split; assumption.
  - right; right. split; [exact MO|]. unfold min_base_fee_numerator in M. rewrite MO in M. apply Ok_inj in M. auto.
Qed.

Lemma num_lowest c p cur d el num mn : created c -> num_from c p cur d el num ->
  min_base_fee_numerator (pf_base (c_fees c)) = Ok mn -> mn <= num.
Proof.
  intros C (x & X & H) MN. pose proof (created_fees_ok c C) as F.
  destruct F as [TB TD TC (mn' & M & M2) _]. set (b := pf_base (c_fees c)) in *. rewrite MN in M. apply Ok_inj in M. subst mn'.
  unfold num_included, num_excluded in H. unfold MIN_FEE_NUMERATOR, MAX_FEE_NUMERATOR in *.
  destruct el.
  - fold b in H. rewrite MN in H. assert (E : Ok mn = Ok num) by (destruct H; assumption). apply Ok_inj in E. lia.
  - assert (E : exists bn, (base_num_included b cur (p_activation p) d x = Ok bn
        \/ base_num_excluded b cur (p_activation p) d x = Ok bn)
       /\ total_fee_numerator (pf_dyn (c_fees c)) bn (p_tracker p) = Ok num).
    { unfold total_num_included, total_num_excluded in H. fold b in H.
      destruct H as [H|H]; apply bind_ok in H; destruct H as (bn & B & H); exists bn; auto. }
    destruct E as (bn & B & T).
    assert (G : mn <= bn).
    { destruct (base_floor c _ _ _ _ _ C X B) as (B1 & B2). fold b in B2.
      destruct (mode_cases c C) as [MO|[MO|MO]]; fold b in MO.
      3: { specialize (B2 MO). unfold min_base_fee_numerator in MN. rewrite MO in MN. apply Ok_inj in MN. lia. }
      all: assert (MM : bf_mode b = 0 \/ bf_mode b = 1) by auto;
        assert (SM : sched_min b = Ok mn) by (unfold min_base_fee_numerator in MN; rewrite MO in MN; exact MN);
        assert (SN : sched_numerator b cur (p_activation p) = Ok bn)
          by (destruct (base_num_sched b cur (p_activation p) d x MM) as (E1 & E2); destruct B as [B|B]; [rewrite E1 in B|rewrite E2 in B]; exact B);
        set (act := p_activation p) in *; clearbody act;
        assert (FA : falling (fun t => sched_numerator b t act) act (act + bf_first b * bf_second b) (bf_cliff b))
          by (first [ destruct (C29_linear c act QuoteToBase 0 C MO) as (F & _) | destruct (C30_exponential c act QuoteToBase 0 C MO) as (F & _)];
              eapply falling_ext; [|exact F]; intros t; cbv beta; symmetry; apply (proj1 (base_num_sched _ _ _ _ _ MM)));
        destruct (bf_second b =? 0) eqn:E0;
          [ unfold sched_numerator in SN; rewrite E0 in SN; apply Ok_inj in SN; lia | ];
        assert (A : act <= cur)
          by (unfold sched_numerator in SN; rewrite E0 in SN; apply bind_ok in SN; destruct SN as (e & Y & _); apply ssub_ok in Y; lia);
        destruct FA as (_ & FA);
        destruct (FA cur (act + bf_first b * bf_second b + (cur - act))) as (f1 & f2 & F1 & F2 & _ & LE & _ & _);
          [ destruct TB as (T1 & T2 & T3 & T4 & T5); unfold u64ok, u16ok in *; nia | ];
        rewrite SN in F1; apply Ok_inj in F1; subst f1;
        assert (Q : sched_numerator b (act + bf_first b * bf_second b + (cur - act)) act = Ok mn);
          [ | rewrite Q in F2; apply Ok_inj in F2; lia ];
        unfold sched_numerator; rewrite E0; 
        assert (P0 : 0 <= bf_first b * bf_second b) by (destruct TB as (T1 & T2 & T3 & T4 & T5); unfold u64ok, u16ok in *; nia);
        rewrite ssub_intro by lia; cbn [bind]; unfold sdiv; rewrite E0; cbn [bind];
        replace (act + bf_first b * bf_second b + (cur - act) - act) with ((cur - act) + bf_first b * bf_second b) by lia;
        rewrite Z.div_add by lia;
        assert (D0 : 0 <= (cur - act) / bf_second b)
          by (apply Z.div_pos; [lia|destruct TB as (T1 & T2 & T3 & T4 & T5); unfold u64ok, u16ok in *; lia]);
        unfold sched_min in SM; unfold sched_by_period in SM |- *; rewrite Z.min_id in SM; rewrite Z.min_r by lia; exact SM. }
    apply total_num_bounds in T; auto; [|lia]. destruct T as (v & _ & -> & V & _).
    unfold MAX_FEE_NUMERATOR. lia.
Qed.

(** ** One instruction *)
Lemma reach_next w o : reachable w -> reachable (step w o).
Proof.
  intros (w0 & ops & I & ->). exists w0, (ops ++ [o]). split; [exact I|].
  unfold run. rewrite fold_left_app. reflexivity.
Qed.

Lemma one_swap w a w' : reachable w -> exec w (OSwap a) = Ok w' ->
  let t := charge_token (w_config w) (sa_dir a) in
  let v := volume t w (OSwap a) in let f := fee_gain t w (OSwap a) in let g := trading_gain t w (OSwap a) in
  exists num, 2500000 <= num <= 990000000 /\ 0 <= v /\ f = ceil_div (num * v) 1000000000 /\ g = f - f * 20 / 100
  /\ (forall k, min_base_fee_numerator (pf_base (c_fees (w_config w))) = Ok k -> k <= num).
Proof.
  intros R H t v f g. destruct (swap_observed_num _ _ _ R H) as (paid & got & fee & tr & pr & rf & num
   & C & P1 & P2 & P3 & P4 & P5 & LG & IN & OUT & FP & FS & NB & FE & CT & NR & vt & _ & _ & NF & _).
  destruct (num_floor _ _ _ _ _ _ (iv_created _ (reachable_inv _ R)) NF) as (N1 & _).
  assert (N2 := fun k => num_lowest _ _ _ _ _ _ k (iv_created _ (reachable_inv _ R)) NF).
  assert (TE : (if c_collect_fee_mode (w_config w) =? 0 then TQuote else token_out (sa_dir a)) = t).
  { unfold t, charge_token. destruct C as [-> | ->]; reflexivity. }
  rewrite TE in *.
  assert (TT : t = TBase \/ t = TQuote).
  { rewrite <- TE. destruct (_ =? 0), (sa_dir a); cbn; auto. }
  assert (ST : same_token t t = true) by (destruct TT as [-> | ->]; reflexivity).
  assert (CH : charged t w (OSwap a) = true).
  { unfold charged. rewrite H. cbn [is_ok andb]. exact ST. }
  assert (ON : forall x, on t t x = x) by (intro x; destruct TT as [-> | ->]; reflexivity).
  pose proof (moved_ok _ _ _ _ H LG) as MV.
  assert (A0 : amount_at 0 (moved w (OSwap a)) = paid) by (rewrite MV; reflexivity).
  assert (A1 : amount_at 1 (moved w (OSwap a)) = got) by (rewrite MV; reflexivity).
  assert (A2 : amount_at 2 (moved w (OSwap a)) = rf).
  { rewrite MV. unfold swap_movements, amount_at. destruct (sa_referral a); cbn [nth_error t_amount]; auto.
    symmetry. auto. }
  destruct (CT t TT) as (_ & B1 & B2 & _). rewrite ON in B1, B2.
  assert (G : g = tr).
  { unfold g, trading_gain. rewrite CH, (step_ok _ _ _ H). lia. }
  assert (F : f = fee).
  { unfold f, fee_gain. rewrite CH. fold g. rewrite G, A2, (step_ok _ _ _ H). lia. }
  exists num. split; [lia|].
  assert (V : v = if c_collect_fee_mode (w_config w) =? 0
              then match sa_dir a with QuoteToBase => paid | BaseToQuote => got + fee end else got + fee).
  { unfold v, volume. rewrite CH, A0, A1. fold f. rewrite F. rewrite <- TE.
    destruct (c_collect_fee_mode (w_config w) =? 0), (sa_dir a); reflexivity. }
  split; [rewrite V; destruct (_ =? 0); [destruct (sa_dir a)|]; lia|].
  split; [rewrite F, V; exact FE|]. split; [rewrite F, G; exact (proj1 FP)|]. auto.
Qed.

Lemma one_op w o t : reachable w -> forall k,
  min_base_fee_numerator (pf_base (c_fees (w_config w))) = Ok k ->
  0 <= volume t w o
  /\ k * volume t w o <= 1000000000 * fee_gain t w o
  /\ 100 * fee_gain t w o <= 99 * volume t w o + 99 * count t w o
  /\ 80 * fee_gain t w o <= 100 * trading_gain t w o
  /\ 100 * trading_gain t w o <= 80 * fee_gain t w o + 99 * count t w o.
Proof.
  intros R k KK. destruct (charged t w o) eqn:CH.
  - destruct o; try discriminate CH. rename a into s. unfold count. rewrite CH. unfold charged in CH.
    apply andb_true_iff in CH. destruct CH as (X & ST).
    destruct (exec w (OSwap s)) as [w'|e] eqn:E; [|discriminate].
    assert (T : charge_token (w_config w) (sa_dir s) = t).
    { destruct (charge_token _ _), t; cbn in ST; congruence. }
    pose proof (one_swap _ _ _ R E) as G. cbv zeta in G. rewrite T in G. destruct G as (num & N & V & F & TR & CL).
    set (v := volume t w (OSwap s)) in *. set (f := fee_gain t w (OSwap s)) in *. set (g := trading_gain t w (OSwap s)) in *.
    clearbody v f g. rewrite ceil_div_cdiv in F by reflexivity.
    pose proof (cdiv_ub (num * v) 1000000000 eq_refl) as U. rewrite <- F in U.
    assert (L : (f - 1) * 1000000000 < num * v) by (apply (cdiv_gt (num * v) 1000000000 (f - 1)); lia).
    assert (M1 : k * v <= num * v).
    { apply Z.mul_le_mono_nonneg_r; [lia|auto]. }
    assert (M2 : num * v <= 990000000 * v) by (apply Z.mul_le_mono_nonneg_r; lia).
    pose proof (Z.div_mod (f * 20) 100 ltac:(lia)). pose proof (Z.mod_pos_bound (f * 20) 100 ltac:(lia)).
    repeat split; lia.
  - unfold fee_gain, trading_gain, count. rewrite CH.
    assert (V : volume t w o = 0) by (unfold volume; destruct o; auto; rewrite CH; reflexivity).
    rewrite V. lia.
Qed.

(** ** Theorems *)

(** One trade: 0.25% to 99% of the volume, rounded up; never zero unless the volume is. *)
Theorem C101_no_free_trade : forall w a w', reachable w -> exec w (OSwap a) = Ok w' ->
  let t := charge_token (w_config w) (sa_dir a) in
  let v := volume t w (OSwap a) in let f := fee_gain t w (OSwap a) in
  ceil_div (25 * v) 10000 <= f <= ceil_div (99 * v) 100 /\ (0 < v -> 0 < f) /\ (v = 0 -> f = 0).
Proof.
  intros w a w' R H t v f. destruct (one_swap _ _ _ R H) as (num & N & V & F & _). fold t in V, F. fold v in V, F. fold f in F.
  clearbody v f. rewrite !ceil_div_cdiv in * by reflexivity.
  pose proof (cdiv_ub (num * v) 1000000000 eq_refl) as U. rewrite <- F in U.
  assert (M1 : 2500000 * v <= num * v) by (apply Z.mul_le_mono_nonneg_r; lia).
  assert (M2 : num * v <= 990000000 * v) by (apply Z.mul_le_mono_nonneg_r; lia).
  split; [split|split].
  - apply cdiv_le; [lia|]. lia.
  - rewrite F. apply cdiv_le; [lia|]. pose proof (cdiv_ub (99 * v) 100 eq_refl). lia.
  - lia.
  - intros ->. rewrite F, Z.mul_0_r. apply cdiv_0. lia.
Qed.

(** Any history of any pool, in either token: cutting trades small does not bring the fees below the lowest rate
    of the config, the one its schedule ends at (the base rate for the rate limiter), and that is 0.25% or more. *)
Theorem C101_fees_cannot_be_dodged : forall w, reachable w ->
  let b := pf_base (c_fees (w_config w)) in
  exists lowest, scheduled b (bf_first b * bf_second b) lowest /\ 2500000 <= lowest
  /\ forall ops t, lowest * total (volume t) w ops <= 1000000000 * total (fee_gain t) w ops.
Proof.
  intros w R b. destruct (lowest_exists _ (iv_created _ (reachable_inv _ R))) as (k & K & KB & SC). fold b in K, SC.
  exists k. split; [exact SC|]. split; [lia|]. unfold b in K. clear SC b. intros ops t. revert w R K.
  induction ops as [|o r IH]; intros w R K; cbn [total]; [lia|].
  destruct (one_op w o t R k K) as (_ & A & _).
  assert (CF : w_config (step w o) = w_config w) by exact (fr_config _ _ (run_frame [o] w (reachable_inv _ R))).
  pose proof (IH (step w o) (reach_next _ _ R)) as B. rewrite CF in B. specialize (B K). lia.
Qed.

(** Nor does it cost more than 99% and less than one unit a trade. *)
Theorem C101_fees_are_bounded : forall ops w t, reachable w ->
  0 <= total (volume t) w ops
  /\ 100 * total (fee_gain t) w ops <= 99 * (total (volume t) w ops + total (count t) w ops).
Proof.
  intros ops w t. revert w. induction ops as [|o r IH]; intros w R; cbn [total]; [lia|].
  destruct (lowest_exists _ (iv_created _ (reachable_inv _ R))) as (k & K & _).
  destruct (one_op w o t R k K) as (A & _ & B & _).
  destruct (IH (step w o) (reach_next _ _ R)) as (C & D). lia.
Qed.

(** Partner and creator together have four fifths of the fees of every history; small trades can only move
    the protocol's and the referrers' fifth to them, by less than one unit a trade. *)
Theorem C101_four_fifths : forall ops w t, reachable w ->
  80 * total (fee_gain t) w ops <= 100 * total (trading_gain t) w ops
  /\ 100 * total (trading_gain t) w ops <= 80 * total (fee_gain t) w ops + 99 * total (count t) w ops.
Proof.
  intros ops w t. revert w. induction ops as [|o r IH]; intros w R; cbn [total]; [lia|].
  destruct (lowest_exists _ (iv_created _ (reachable_inv _ R))) as (k & K & _).
  destruct (one_op w o t R k K) as (_ & _ & _ & A & B).
  destruct (IH (step w o) (reach_next _ _ R)) as (C & D). lia.
Qed.

(** ** Non-vacuity *)

(** Five trades charged in quote tokens, with their volume, fees and the part of partner and creator. *)
Definition sums (t : token) (w : world) (ops : list op) : Z * Z * Z * Z :=
  (total (count t) w ops, total (volume t) w ops, total (fee_gain t) w ops, total (trading_gain t) w ops).

Example C101_case : reachable wA /\ sums TQuote wA histA1 = (5, 36679123116, 1731200013, 1384960011).
Proof. split; [exact (reachA [])|]. vm_compute. reflexivity. Qed.

(** Its schedule falls from 5% to 1%. *)
Example C101_case_lowest : let b := pf_base (c_fees (w_config wA)) in
  bf_cliff b = 50000000 /\ scheduled b (bf_first b * bf_second b) 10000000.
Proof. split; [reflexivity|]. left. split; vm_compute; reflexivity. Qed.

(** Two hundred units in one purchase pay 7 units, of which the protocol and the referrer get one; ten purchases
    of twenty pay 10, and partner and creator get all of it. *)
Definition dust (n : Z) : op := swp 500 (Some 600) QuoteToBase 0 n 0 1700000300 plain_view.

Example C101_case_dust : reachable (run wA histA1)
  /\ sums TQuote (run wA histA1) [dust 200] = (1, 200, 7, 6)
  /\ sums TQuote (run wA histA1) (repeat (dust 20) 10) = (10, 200, 10, 10).
Proof. split; [apply reachA|]. split; vm_compute; reflexivity. Qed.

(** A pool that charges in the token bought. *)
Example C101_case_base : reachable wB
  /\ sums TBase wB [dust 200] = (1, 204799, 12263, 9811)
  /\ sums TBase wB (repeat (dust 20) 10) = (10, 204790, 12270, 9820).
Proof. split; [exact (reachB [])|]. split; vm_compute; reflexivity. Qed.

(** A pool with the rate limiter. *)
Example C101_case_limiter : exists v f g, reachable wC /\ bf_mode (pf_base (c_fees (w_config wC))) = 2
  /\ sums TQuote wC [dust 2000000] = (1, v, f, g) /\ 0 < v /\ 0 < f.
Proof.
  eexists _, _, _. split; [exact (reachC [])|]. split; [reflexivity|]. split; [vm_compute; reflexivity|].
  split; reflexivity.
Qed.

Print Assumptions C101_no_free_trade.
Print Assumptions C101_fees_cannot_be_dodged.
Print Assumptions C101_fees_are_bounded.
Print Assumptions C101_four_fifths.
