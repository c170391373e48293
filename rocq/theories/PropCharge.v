(** * The fee rate of a trade in closed form: C88. *)
From Coq Require Import ZArith QArith List Bool Lia ZifyBool.
From Verif Require Import Base MathModel CurveModel FeeModel ConfigModel PoolModel TxModel
  SystemModel Spec Lib Potential CalcProofs ConfigProofs FeeProofs SwapProofs InvProofs InvReach PropSwap Effects Frame
  PropFees PropLimiter PropSched PropRate PropVol PropTx Fixtures FixturesReach.
Import ListNotations.
Open Scope Z_scope.
#[local] Arguments Z.pow : simpl never.

(** ** Specification *)

(** The base rate [f] (in parts per 10^9) [elapsed] points after activation: [n] whole periods have
    passed, at most the configured number of them. Linear schedules lose a fixed amount per period;
    exponential ones keep (1 - third/10000) of the rate per period, up to rounding; outside its
    window the rate limiter charges the cliff rate. A schedule without periods has [bf_second = 0],
    and then Coq's [elapsed / 0 = 0] gives n = 0: the cliff rate. *)
Definition scheduled (b : base_fee) (elapsed f : Z) : Prop :=
  let n := Z.min (elapsed / bf_second b) (bf_first b) in
  (bf_mode b = 0 /\ f = bf_cliff b - bf_third b * n)
  \/ (bf_mode b = 1 /\ (f - 1) * 10000 ^ n < bf_cliff b * (10000 - bf_third b) ^ n
                    /\ bf_cliff b * (10000 - bf_third b) ^ n < (f + 2) * 10000 ^ n)
  \/ (bf_mode b = 2 /\ f = bf_cliff b).

(** The dynamic surcharge a pool shows: a function of its configuration and of the volatility
    recorded by the trades so far. It is 0 without a dynamic fee. *)
Definition surcharge (w : world) : Z :=
  let df := pf_dyn (c_fees (w_config w)) in
  if df_initialized df =? 1
  then ceil_div ((vt_va (p_tracker (w_pool w)) * df_bin_step df) ^ 2 * df_vfc df) 100000000000
  else 0.

(** ** Proofs *)

Lemma pre_keeps_va c p now vt : pre_tracker c p now vt -> vt_va vt = vt_va (p_tracker p).
Proof.
  unfold pre_tracker. cbv zeta. destruct (dyn_enabled _); [|intros ->; reflexivity].
  unfold update_references. cbv zeta. destruct (_ <=? _); [|intros H; apply Ok_inj in H; subst; reflexivity].
  destruct (_ <? _); intros H.
  - apply bind_ok in H. destruct H as (x & _ & H). apply bind_ok in H. destruct H as (y & _ & H).
    apply Ok_inj in H. subst. reflexivity.
  - apply Ok_inj in H. subst. reflexivity.
Qed.

Lemma variable_is_surcharge w vt v : reachable w -> vt_va vt = vt_va (p_tracker (w_pool w)) ->
  variable_fee_numerator (pf_dyn (c_fees (w_config w))) vt = Ok v -> v = surcharge w.
Proof.
  intros R E H. pose proof (created_dyn _ (iv_created _ (reachable_inv _ R))) as D. cbv zeta in D.
  unfold surcharge. set (df := pf_dyn (c_fees (w_config w))) in *. cbv zeta.
  rewrite ceil_div_cdiv by reflexivity.
  unfold variable_fee_numerator, dyn_enabled in H. unfold dynamic_on in D. fold df in D.
  destruct D as [(D & _)|(D & _)]; rewrite D in *.
  - change (negb (negb (0 =? 0))) with true in H. cbv iota in H. apply Ok_inj in H. subst v. reflexivity.
  - change (negb (negb (1 =? 0))) with false in H. change (1 =? 1) with true. cbv iota in *.
    apply bind_ok in H. destruct H as (m & M & H). apply smul_ok in M. destruct M as (-> & _).
    apply bind_ok in H. destruct H as (q & M & H). apply smul_ok in M. destruct M as (-> & _).
    apply bind_ok in H. destruct H as (r & M & H). apply smul_ok in M. destruct M as (-> & _).
    apply bind_ok in H. destruct H as (s & M & H). apply sadd_ok in M. destruct M as (-> & _).
    apply sdiv_ok in H. destruct H as (-> & _). rewrite E.
    unfold cdiv. rewrite Z.pow_2_r. f_equal. lia.
Qed.

(** The base rate at a point, when a trade can be made at all. *)
Definition base_at (b : base_fee) (cur act : Z) : Z :=
  match base_num_included b cur act BaseToQuote 0 with Ok f => f | Err _ => 0 end.

Lemma base_is_at c cur act d x f : created c -> let b := pf_base (c_fees c) in
  ~ limiter_active c act cur d ->
  (base_num_included b cur act d x = Ok f \/ base_num_excluded b cur act d x = Ok f) ->
  f = base_at b cur act /\ scheduled b (cur - act) f.
Proof.
  intros CR b LA B. unfold base_at.
  destruct (Z.eq_dec (bf_mode b) 2) as [M|M].
  - assert (E : f = bf_cliff b).
    { unfold base_num_included, base_num_excluded in B. rewrite M in B.
      change ((2 =? 0) || (2 =? 1)) with false in B. change (2 =? 2) with true in B. cbv iota in B.
      assert (AF : forall ap, rl_applied b cur act d = Ok ap -> ap = false).
      { intros ap AP. pose proof (limiter_cases c CR M) as LC. cbv zeta in LC. fold b in LC.
        destruct LC as (CL & [(Z1 & Z2 & Z3)|L]).
        - unfold rl_applied, rl_is_zero in AP. rewrite Z1, Z2, Z3 in AP. simpl in AP. apply Ok_inj in AP. auto.
        - apply rl_applied_inv in AP; auto. destruct d; [exact AP|].
          destruct (cur <=? act + bf_second b) eqn:E; [|exact AP].
          exfalso. apply LA. unfold limiter_active. fold b. unfold limited in L.
          repeat split; auto; lia. }
      destruct B as [B|B]; apply bind_ok in B; destruct B as (ap & AP & B); apply AF in AP; subst ap;
      apply Ok_inj in B; auto. }
    split; [|right; right; auto]. unfold base_num_included, rl_applied. rewrite M.
    change ((2 =? 0) || (2 =? 1)) with false. change (2 =? 2) with true. cbv iota.
    destruct (rl_is_zero b); cbn [bind]; exact E.
  - assert (M2 : bf_mode b = 0 \/ bf_mode b = 1).
    { unfold base_num_included, base_num_excluded in B.
      destruct (bf_mode b =? 0) eqn:E0; [lia|]. destruct (bf_mode b =? 1) eqn:E1; [lia|].
      cbn [orb] in B. replace (bf_mode b =? 2) with false in B by lia. destruct B; discriminate. }
    destruct (base_num_sched b cur act d x M2) as (A1 & A2).
    destruct (base_num_sched b cur act BaseToQuote 0 M2) as (A3 & _).
    rewrite A1, A2 in B. rewrite A3. assert (S : sched_numerator b cur act = Ok f) by (destruct B; assumption).
    clear B. rewrite S. split; [reflexivity|].
    (* either time does not matter or the point is not before activation *)
    assert (T : exists t, act <= t /\ (t - act) / bf_second b = (cur - act) / bf_second b
                  /\ sched_numerator b t act = Ok f).
    { pose proof S as S'. unfold sched_numerator in S'. destruct (bf_second b =? 0) eqn:Z0.
      - exists act. assert (Z1 : bf_second b = 0) by lia. rewrite Z1, !Zdiv_0_r.
        split; [lia|]. split; [reflexivity|]. unfold sched_numerator. rewrite Z0. exact S'.
      - exists cur. apply bind_ok in S'. destruct S' as (e & E & _). apply ssub_ok in E.
        split; [lia|]. split; [reflexivity|exact S]. }
    destruct T as (t & T1 & T2 & T3).
    destruct (base_num_sched b t act d x M2) as (A4 & _). rewrite <- A4 in T3. unfold scheduled. cbv zeta.
    rewrite <- T2. destruct M2 as [M0|M1].
    + left. split; [exact M0|]. exact (C29_linear_value c act t d x f CR M0 T1 T3).
    + right. left. split; [exact M1|]. exact (C30_exponential_value c act t d x f CR M1 T1 T3).
Qed.

(** ** C88 *)

(** At every reachable state and every point there is one rate, the scheduled base rate plus the
    surcharge the pool shows before the trade, capped at 99%, and every trade accepted then pays
    exactly that rate on the taxed amount, rounded up: whatever its direction, mode, size and price
    impact. The exceptions are the discounted first swap and buys under the rate limiter. *)
Theorem C88_one_rate : forall w cur, reachable w ->
  let c := w_config w in let b := pf_base (c_fees c) in let p := w_pool w in
  exists base, forall a w',
    exec w (OSwap a) = Ok w' -> point_of c (sa_slot a) (sa_now a) = cur ->
    ~ bundle_entitled w a -> ~ limiter_active c (p_activation p) cur (sa_dir a) ->
    scheduled b (cur - p_activation p) base
    /\ exists paid got fee referral,
      let ft := if c_collect_fee_mode c =? 0 then TQuote else token_out (sa_dir a) in
      let tin := token_in (sa_dir a) in let tout := token_out (sa_dir a) in
      w_log w' = w_log w ++ swap_movements a paid got ft referral
      /\ reserve tin (w_pool w') = reserve tin p + paid - on ft tin fee
      /\ reserve tout (w_pool w') = reserve tout p - got - on ft tout fee
      /\ fee = ceil_div (Z.min 990000000 (base + surcharge w)
                         * (if c_collect_fee_mode c =? 0
                            then match sa_dir a with QuoteToBase => paid | BaseToQuote => got + fee end
                            else got + fee)) 1000000000.
Proof.
  intros w cur R c b p. exists (base_at b cur (p_activation p)). intros a w' H PT NB LA.
  destruct (swap_observed_num _ _ _ R H) as (paid & got & fee & tr & pr & rf & num
   & C & P1 & P2 & P3 & P4 & P5 & LG & IN & OUT & _ & FS & _ & FE & _ & _ & vt & PTR & _ & NF & _).
  pose proof (iv_created _ (reachable_inv _ R)) as CR. destruct (created_fees_ok c CR) as [TB TD _ _ _].
  destruct NF as (x & X & NF). unfold num_included, num_excluded in NF.
  rewrite <- eligible_iff in NB. destruct (first_swap_eligible _ _ _ _ _); [contradiction NB; reflexivity|].
  fold c in NF, LG, FE, IN, OUT. rewrite PT in NF.
  unfold total_num_included, total_num_excluded in NF.
  assert (G : exists bn, (base_num_included b cur (p_activation p) (sa_dir a) x = Ok bn
              \/ base_num_excluded b cur (p_activation p) (sa_dir a) x = Ok bn)
       /\ total_fee_numerator (pf_dyn (c_fees c)) bn vt = Ok num).
  { destruct NF as [N|N]; apply bind_ok in N; destruct N as (bn & B & N); exists bn; auto. }
  destruct G as (bn & B & T).
  assert (B0 : 0 <= bn) by (destruct B as [B|B]; [eapply base_num_included_nonneg|eapply base_num_excluded_nonneg]; eauto).
  destruct (base_is_at c cur (p_activation p) (sa_dir a) x bn CR LA B) as (BE & SC). fold b in BE, SC.
  apply total_num_bounds in T; [|exact TD|exact B0]. destruct T as (v & VE & NE & V0 & _).
  apply (variable_is_surcharge w vt v R) in VE; [|eapply pre_keeps_va; exact PTR].
  rewrite <- BE. split; [exact SC|]. exists paid, got, fee, rf. cbv zeta.
  split; [exact LG|]. split; [unfold p; lia|]. split; [unfold p; lia|].
  unfold MAX_FEE_NUMERATOR in NE. rewrite <- VE, <- NE. exact FE.
Qed.

(** The surcharge only changes in trades. *)
Theorem C88_only_trades_change_it : forall w o w',
  reachable w -> exec w o = Ok w' -> (forall a, o <> OSwap a) -> surcharge w' = surcharge w.
Proof.
  intros w o w' R H N. destruct (exec_frame _ _ _ (reachable_inv _ R) H) as (FR & SM).
  unfold surcharge. rewrite (fr_config _ _ FR).
  assert (E : p_tracker (w_pool w') = p_tracker (w_pool w)); [|rewrite E; reflexivity].
  destruct o; try (exact (sk_tracker _ _ SM)). exfalso. eapply N. reflexivity.
Qed.

(** After the decay period, a trade that moves the price by less than a basis point clears the
    surcharge: the next trade pays the base rate only. *)
Theorem C88_cleared : forall w a w',
  reachable w -> exec w (OSwap a) = Ok w' -> dynamic_on (w_config w) ->
  df_decay (pf_dyn (c_fees (w_config w))) <= sa_now a - vt_last (p_tracker (w_pool w)) ->
  bins_moved (p_price (w_pool w)) (p_price (w_pool w')) = 0 ->
  surcharge w' = 0.
Proof.
  intros w a w' R H ON DE BM. destruct (C34_volatility_rules w a w' R H ON) as (_ & V2 & V3 & _).
  pose proof (iv_created _ (reachable_inv _ R)) as CR. pose proof (created_dyn _ CR) as D. cbv zeta in D, V2, V3.
  destruct (exec_frame _ _ _ (reachable_inv _ R) H) as (FR & _).
  unfold surcharge. rewrite (fr_config _ _ FR). set (df := pf_dyn (c_fees (w_config w))) in *. cbv zeta.
  unfold dynamic_on in *. fold df in ON, D. destruct D as [D|(_ & D)]; [lia|].
  rewrite ON. change (1 =? 1) with true. cbv iota.
  destruct V2 as (PR & VR); [lia|].
  replace (Z.max 0 (sa_now a - vt_last (p_tracker (w_pool w))) <? df_decay df) with false in VR by lia.
  rewrite PR, VR in V3. unfold bins_moved in BM, V3. rewrite Z.max_comm, Z.min_comm in BM. rewrite BM in V3.
  assert (E : vt_va (p_tracker (w_pool w')) = 0) by lia. rewrite E. reflexivity.
Qed.

(** A quiet pool does not lose its surcharge by itself: the claim "a trade after the decay period
    pays the base rate" is false. Ten days after the last price move, with a decay period of two
    minutes and the base schedule long over, a buy of 1000000000 still pays the surcharge set by
    the old moves, 10752152 instead of 10000000. *)
Theorem C88_quiet_trade_pays_base_refuted :
  exists w a w' base got, reachable w /\ exec w (OSwap a) = Ok w' /\ dynamic_on (w_config w)
    /\ ~ bundle_entitled w a /\ sa_dir a = QuoteToBase /\ c_collect_fee_mode (w_config w) = 0
    /\ df_decay (pf_dyn (c_fees (w_config w))) = 120
    /\ sa_now a - vt_last (p_tracker (w_pool w)) = 899950
    /\ scheduled (pf_base (c_fees (w_config w)))
         (point_of (w_config w) (sa_slot a) (sa_now a) - p_activation (w_pool w)) base
    /\ w_log w' = w_log w ++ swap_movements a 1000000000 got TQuote 0
    /\ p_quote (w_pool w') = p_quote (w_pool w) + 1000000000 - 10752152
    /\ ceil_div (base * 1000000000) 1000000000 = 10000000.
Proof.
  set (w := run wA (firstn 3 histA1)).
  set (o := swp 502 None QuoteToBase 0 1000000000 1 1700900000 plain_view).
  assert (OK : is_ok (exec w o) = true) by (vm_compute; reflexivity).
  assert (RW : reachable w) by apply reachA.
  unfold o, swp in OK. match type of OK with is_ok (exec w (OSwap ?x)) = _ => set (a := x) in * end.
  destruct (exec w (OSwap a)) as [w'|e] eqn:X; [|discriminate]. clear OK.
  exists w, a, w', 10000000, 556597681479.
  assert (W : w' = step w (OSwap a)) by (rewrite (step_ok _ _ _ X); reflexivity).
  split; [exact RW|]. split; [exact X|]. split; [vm_compute; reflexivity|].
  split. { rewrite <- eligible_iff. vm_compute. discriminate. }
  split; [reflexivity|]. split; [vm_compute; reflexivity|]. split; [vm_compute; reflexivity|].
  split; [vm_compute; reflexivity|]. split; [left; split; vm_compute; reflexivity|].
  clear X. subst w'. split; [vm_compute; reflexivity|]. split; vm_compute; reflexivity.
Qed.

(** ** Non-vacuity *)

(** The pool of fixture A with a surcharge of 752152: a buy under the conditions of
    [C88_one_rate], in the second period of its linear schedule. *)
Example C88_case :
  let w := run wA (firstn 3 histA1) in
  let o := swp 502 None QuoteToBase 0 1000000000 1 1700000120 plain_view in
  reachable w /\ surcharge w = 752152
  /\ scheduled (pf_base (c_fees (w_config w))) (1700000120 - p_activation (w_pool w)) 42000000
  /\ match o with
     | OSwap a => is_ok (exec w (OSwap a)) = true /\ ~ bundle_entitled w a
         /\ point_of (w_config w) (sa_slot a) (sa_now a) = 1700000120
         /\ ~ limiter_active (w_config w) (p_activation (w_pool w)) 1700000120 (sa_dir a)
         /\ p_quote (w_pool (step w (OSwap a)))
            = p_quote (w_pool w) + 1000000000 - ceil_div (42752152 * 1000000000) 1000000000
     | _ => False
     end.
Proof.
  cbv zeta. split; [apply reachA|]. split; [vm_compute; reflexivity|].
  split; [left; split; vm_compute; reflexivity|]. cbv [swp]. split; [vm_compute; reflexivity|].
  split; [rewrite <- eligible_iff; vm_compute; discriminate|]. split; [vm_compute; reflexivity|].
  split; [intros (K & _); vm_compute in K; discriminate|]. vm_compute. reflexivity.
Qed.

(** A small buy after a quiet time clears the surcharge. *)
Example C88_case_cleared :
  let w := run wA (firstn 3 histA1) in
  let o := swp 502 None QuoteToBase 0 100000 1 1700900000 plain_view in
  reachable w /\ dynamic_on (w_config w) /\ 0 < surcharge w
  /\ df_decay (pf_dyn (c_fees (w_config w))) <= 1700900000 - vt_last (p_tracker (w_pool w))
  /\ is_ok (exec w o) = true
  /\ bins_moved (p_price (w_pool w)) (p_price (w_pool (step w o))) = 0
  /\ surcharge (step w o) = 0.
Proof.
  cbv zeta. split; [apply reachA|]. repeat split; vm_compute; try reflexivity. congruence.
Qed.

Print Assumptions C88_one_rate.
Print Assumptions C88_only_trades_change_it.
Print Assumptions C88_cleared.
Print Assumptions C88_quiet_trade_pays_base_refuted.
