(** * C94: the build that the tests run does what the deployed program does. *)
From Coq Require Import ZArith QArith List Bool Lia ZifyBool.
From Verif Require Import Base MathModel CurveModel FeeModel ConfigModel PoolModel TxModel
  SystemModel Fixtures Spec Lib CurveProofs CurveLoops Potential CalcProofs ConfigProofs FeeProofs
  SwapProofs InvProofs InvOps InvReach FixturesReach Frame PropTrade PropAllow LocalModel.
Import ListNotations.
Open Scope Z_scope.
#[local] Arguments Z.pow : simpl never.
#[local] Arguments Z.testbit : simpl never.

(** ** Proofs *)

(** The two loops differ at most in the check, which is made where the stop price has been reached. *)
Lemma loops_agree reserve threshold total stop curve : forall cur amount out r,
  buy_in_loop stop curve cur amount out = Ok r ->
  (fi_price r = stop -> 0 <= total - fi_left r /\ reserve + (total - fi_left r) <= U64_MAX
                        /\ threshold <= reserve + (total - fi_left r)) ->
  buy_in_loop_local reserve threshold total stop curve cur amount out = Ok r.
Proof.
  induction curve as [|[p l] rest IH]; cbn [buy_in_loop buy_in_loop_local]; intros cur amount out r H C; [exact H|].
  destruct ((p =? 0) || (l =? 0)); [exact H|].
  destruct (cur <? Z.min stop p); [|apply IH; assumption].
  destruct (delta_quote_256 cur (Z.min stop p) l Up) as [mx|e]; [|discriminate]. cbn [bind] in *.
  destruct (amount <? mx); [exact H|].
  destruct (delta_base cur (Z.min stop p) l Down) as [o|e]; [|discriminate]. cbn [bind] in *.
  destruct (sadd U64_MAX out o) as [out'|e]; [|discriminate]. cbn [bind] in *.
  destruct (scast U64_MAX mx) as [mx'|e]; [|discriminate]. cbn [bind] in *.
  destruct (ssub amount mx') as [am|e]; [|discriminate]. cbn [bind] in *.
  destruct (Z.min stop p =? stop) eqn:S; [|apply IH; assumption].
  apply Ok_inj in H. subst r. cbn [fi_price fi_left] in C. destruct (C ltac:(lia)) as (C1 & C2 & C3).
  rewrite ssub_intro by lia. cbn [bind]. rewrite sadd_intro by lia. cbn [bind]. rewrite require_true by lia. reflexivity.
Qed.

Lemma loops_errors reserve threshold total stop curve : forall cur amount out r,
  buy_in_loop_local reserve threshold total stop curve cur amount out = Ok r ->
  buy_in_loop stop curve cur amount out = Ok r.
Proof.
  induction curve as [|[p l] rest IH]; cbn [buy_in_loop buy_in_loop_local]; intros cur amount out r H; [exact H|].
  destruct ((p =? 0) || (l =? 0)); [exact H|].
  destruct (cur <? Z.min stop p); [|apply IH; assumption].
  destruct (delta_quote_256 cur (Z.min stop p) l Up) as [mx|e]; [|discriminate]. cbn [bind] in *.
  destruct (amount <? mx); [exact H|].
  destruct (delta_base cur (Z.min stop p) l Down) as [o|e]; [|discriminate]. cbn [bind] in *.
  destruct (sadd U64_MAX out o) as [out'|e]; [|discriminate]. cbn [bind] in *.
  destruct (scast U64_MAX mx) as [mx'|e]; [|discriminate]. cbn [bind] in *.
  destruct (ssub amount mx') as [am|e]; [|discriminate]. cbn [bind] in *.
  destruct (Z.min stop p =? stop) eqn:S; [|apply IH; assumption].
  minv. reflexivity.
Qed.

Lemma buys_agree c p amount s : cfg_ok c -> c_start c <= p_price p <= c_mig_price c ->
  quote_area_ceil (c_start c) (curve_points c) (p_price p) <= p_quote p -> 0 <= amount ->
  p_quote p + (amount - fi_left s) <= U64_MAX ->
  calc_buy_from_in c (p_price p) amount (c_mig_price c) = Ok s ->
  calc_buy_from_in_local c (p_quote p) (p_price p) amount (c_mig_price c) = Ok s.
Proof.
  intros K P AR A U H. pose proof (ok_curve _ K) as CO. apply loops_agree; [exact H|]. intros E.
  destruct (calc_buy_in_moves c (curve_points c) (p_price p) amount s CO P A H) as (M & PP & L & O).
  pose proof (moves_quote_ceil _ _ _ _ _ _ (co_wf _ _ CO) M) as Q. rewrite E in Q. pose proof (ok_area _ K) as OA.
  rewrite OA in Q. lia.
Qed.

(** What the reserve gains fits 64 bits. *)
Definition fits (p : pool) (d : direction) (gain : Z) : Prop :=
  match d with QuoteToBase => p_quote p + gain <= U64_MAX | BaseToQuote => True end.

Lemma fi_agree c p d amount s : cfg_ok c -> c_start c <= p_price p <= c_mig_price c ->
  quote_area_ceil (c_start c) (curve_points c) (p_price p) <= p_quote p -> 0 <= amount ->
  fits p d (amount - fi_left s) ->
  fi_of_direction c (p_price p) d amount = Ok s -> fi_of_direction_local c p d amount = Ok s.
Proof. intros K P AR A U H. destruct d; [exact H|]. apply buys_agree; assumption. Qed.
Lemma fi_back c p d amount s : fi_of_direction_local c p d amount = Ok s -> fi_of_direction c (p_price p) d amount = Ok s.
Proof. destruct d; [auto|]. apply loops_errors. Qed.

Lemma net_nonneg num amount ref (b : bool) f : 0 <= amount ->
  (if b then get_fee_on_amount num amount ref else Ok (mkFoA amount 0 0 0)) = Ok f -> 0 <= foa_amount f.
Proof.
  intros A H. destruct b.
  - apply fee_on_amount_ok in H. destruct H as (fee & F & L & -> & _). lia.
  - apply Ok_inj in H. subst f. exact A.
Qed.

Lemma exact_agree c p amount fm d cur e r : cfg_ok c -> c_start c <= p_price p <= c_mig_price c ->
  quote_area_ceil (c_start c) (curve_points c) (p_price p) <= p_quote p -> 0 <= amount ->
  fits p d (sr_excluded r) ->
  swap_exact_in c p amount fm d cur e = Ok r -> swap_exact_in_local c p amount fm d cur e = Ok r.
Proof.
  intros K P AR A U H. unfold swap_exact_in, swap_exact_in_local in *.
  apply bind_ok in H. destruct H as (num & N & H). rewrite N. cbn [bind].
  apply bind_ok in H. destruct H as (f & F & H). rewrite F. cbn [bind].
  apply bind_ok in H. destruct H as (s & S & H).
  apply bind_ok in H. destruct H as (u & L & H). pose proof (require_ok _ _ _ L) as L0.
  apply bind_ok in H. destruct H as (g & G & H). apply Ok_inj in H. subst r. cbn [sr_excluded] in U.
  rewrite (fi_agree c p d (foa_amount f) s K P AR (net_nonneg _ _ _ _ _ A F)); [|unfold fits in *; destruct d; [auto|lia]|exact S].
  cbn [bind]. rewrite L. cbn [bind]. rewrite G. reflexivity.
Qed.
Lemma exact_back c p amount fm d cur e r :
  swap_exact_in_local c p amount fm d cur e = Ok r -> swap_exact_in c p amount fm d cur e = Ok r.
Proof.
  intros H. unfold swap_exact_in, swap_exact_in_local in *.
  apply bind_ok in H. destruct H as (num & N & H). rewrite N. cbn [bind].
  apply bind_ok in H. destruct H as (f & F & H). rewrite F. cbn [bind].
  apply bind_ok in H. destruct H as (s & S & H). rewrite (fi_back _ _ _ _ _ S). exact H.
Qed.

Lemma partial_agree c p amount fm d cur e r : cfg_ok c -> c_start c <= p_price p <= c_mig_price c ->
  quote_area_ceil (c_start c) (curve_points c) (p_price p) <= p_quote p -> 0 <= amount ->
  fits p d (sr_excluded r) ->
  swap_partial c p amount fm d cur e = Ok r -> swap_partial_local c p amount fm d cur e = Ok r.
Proof.
  intros K P AR A U H. unfold swap_partial, swap_partial_local in *.
  apply bind_ok in H. destruct H as (num & N & H). rewrite N. cbn [bind].
  apply bind_ok in H. destruct H as (f & F & H). rewrite F. cbn [bind].
  apply bind_ok in H. destruct H as (s & S & H).
  apply bind_ok in H. destruct H as ([[[[incl actual] tr] pr] rf] & X & H).
  apply bind_ok in H. destruct H as (g & G & H). apply Ok_inj in H. subst r. cbn [sr_excluded] in U.
  assert (AC : actual = foa_amount f - fi_left s).
  { destruct (negb (fi_left s =? 0)) eqn:Z0.
    - apply bind_ok in X. destruct X as (ac & Y & X). unfold ssub in Y. destruct (fi_left s <=? foa_amount f); [|discriminate].
      apply Ok_inj in Y. destruct (fm_on_input fm).
      + apply bind_ok in X. destruct X as (n2 & _ & X). apply bind_ok in X. destruct X as ([i2 f2] & _ & X).
        apply bind_ok in X. destruct X as ([[a2 b2] c2] & _ & X). apply Ok_inj in X.
        assert (ac = actual) by (apply (f_equal (fun t => snd (fst (fst (fst t))))) in X; exact X). lia.
      + apply Ok_inj in X. assert (ac = actual) by (apply (f_equal (fun t => snd (fst (fst (fst t))))) in X; exact X). lia.
    - apply Ok_inj in X. assert (foa_amount f = actual) by (apply (f_equal (fun t => snd (fst (fst (fst t))))) in X; exact X). lia. }
  rewrite (fi_agree c p d (foa_amount f) s K P AR (net_nonneg _ _ _ _ _ A F)); [|unfold fits in *; destruct d; [auto|lia]|exact S].
  cbn [bind]. rewrite X. cbn [bind]. rewrite G. reflexivity.
Qed.
Lemma partial_back c p amount fm d cur e r :
  swap_partial_local c p amount fm d cur e = Ok r -> swap_partial c p amount fm d cur e = Ok r.
Proof.
  intros H. unfold swap_partial, swap_partial_local in *.
  apply bind_ok in H. destruct H as (num & N & H). rewrite N. cbn [bind].
  apply bind_ok in H. destruct H as (f & F & H). rewrite F. cbn [bind].
  apply bind_ok in H. destruct H as (s & S & H). rewrite (fi_back _ _ _ _ _ S). exact H.
Qed.

Lemma process_agree c p mode a0 a1 fm d cur e r : cfg_ok c -> c_start c <= p_price p <= c_mig_price c ->
  quote_area_ceil (c_start c) (curve_points c) (p_price p) <= p_quote p -> 0 <= a0 ->
  fits p d (sr_excluded r) ->
  process_swap c p mode a0 a1 fm d cur e = Ok r -> process_swap_local c p mode a0 a1 fm d cur e = Ok r.
Proof.
  intros K P AR A U H. unfold process_swap_local. destruct (mode =? 0) eqn:M0; [|destruct (mode =? 1) eqn:M1; [|exact H]];
  unfold process_swap in H; rewrite M0 in H; [|rewrite M1 in H]; apply bind_ok in H; destruct H as (r' & S & H);
  apply bind_ok in H; destruct H as (u & L & H); apply Ok_inj in H; subst r'.
  - rewrite (exact_agree _ _ _ _ _ _ _ _ K P AR A U S). cbn [bind]. rewrite L. reflexivity.
  - rewrite (partial_agree _ _ _ _ _ _ _ _ K P AR A U S). cbn [bind]. rewrite L. reflexivity.
Qed.
Lemma process_back c p mode a0 a1 fm d cur e r :
  process_swap_local c p mode a0 a1 fm d cur e = Ok r -> process_swap c p mode a0 a1 fm d cur e = Ok r.
Proof.
  intros H. unfold process_swap_local in H. destruct (mode =? 0) eqn:M0; [|destruct (mode =? 1) eqn:M1; [|exact H]];
  unfold process_swap; rewrite M0; [|rewrite M1]; apply bind_ok in H; destruct H as (r' & S & H).
  - rewrite (exact_back _ _ _ _ _ _ _ _ S). exact H.
  - rewrite (partial_back _ _ _ _ _ _ _ _ S). exact H.
Qed.

Lemma fees_keep_quote c p b t pr p1 : apply_fees c p b t pr = Ok p1 -> p_quote p1 = p_quote p.
Proof.
  intros H. unfold apply_fees in H. apply bind_ok in H. destruct H as ([x y] & _ & H). destruct b;
  do 5 (apply bind_ok in H; destruct H as (? & _ & H)); apply Ok_inj in H; subst p1; destruct p; reflexivity.
Qed.
Lemma applied_fits c p r fm d now p2 : apply_swap_result c p r fm d now = Ok p2 -> fits p d (sr_excluded r).
Proof.
  intros H. destruct d; [exact Logic.I|]. unfold apply_swap_result in H. cbv zeta in H.
  apply bind_ok in H. destruct H as (q1 & F & H). apply fees_keep_quote in F.
  apply bind_ok in H. destruct H as (out & _ & H). apply bind_ok in H. destruct H as (q2 & RS & _).
  unfold apply_reserves in RS. apply bind_ok in RS. destruct RS as (q & Q & _).
  unfold sadd in Q. destruct (p_quote q1 + sr_excluded r <=? U64_MAX) eqn:E; [|discriminate].
  unfold fits. assert (X : p_quote (set_price p (sr_price r)) = p_quote p) by (destruct p; reflexivity). lia.
Qed.

Lemma swap_agree w a w' : reachable w -> 0 <= sa_amount0 a -> do_swap w a = Ok w' -> do_swap_local w a = Ok w'.
Proof.
  intros R A H. pose proof (reachable_inv _ R) as V. pose proof (created_cfg_ok _ (iv_created _ V)) as K.
  unfold do_swap, swap_full, do_swap_local in *. cbv zeta in *. apply bind_ok in H. destruct H as ([w2 r] & H & E). apply Ok_inj in E.
  cbn [fst] in E. subst w2.
  apply bind_ok in H. destruct H as (u & X & H). rewrite X. cbn [bind]. clear X u.
  apply bind_ok in H. destruct H as (cur & X & H). rewrite X. cbn [bind]. clear X.
  apply bind_ok in H. destruct H as (u & X & H). rewrite X. cbn [bind]. clear X u.
  apply bind_ok in H. destruct H as (u & X & H). rewrite X. cbn [bind]. clear X u.
  apply bind_ok in H. destruct H as (p1 & X & H). rewrite X. cbn [bind].
  destruct (pre_swap_tracker _ _ _ _ X) as (vt & P1 & _). clear X.
  apply bind_ok in H. destruct H as (fm & X & H). rewrite X. cbn [bind]. clear X.
  apply bind_ok in H. destruct H as (r' & PS & H). apply bind_ok in H. destruct H as (p2 & AP & H).
  assert (PP : p_price p1 = p_price (w_pool w)) by (subst p1; destruct (w_pool w); reflexivity).
  assert (PQ : p_quote p1 = p_quote (w_pool w)) by (subst p1; destruct (w_pool w); reflexivity).
  rewrite (process_agree _ _ _ _ _ _ _ _ _ _ K ltac:(rewrite PP; exact (iv_price _ V))
    ltac:(rewrite PP, PQ; exact (iv_area _ V)) A (applied_fits _ _ _ _ _ _ _ AP) PS). cbn [bind].
  rewrite AP. cbn [bind]. apply bind_ok in H. destruct H as (w1 & X & H). rewrite X. cbn [bind].
  apply bind_ok in H. destruct H as (w2 & Y & H). rewrite Y. apply Ok_inj in H. apply pair_inj in H. destruct H as (-> & _). reflexivity.
Qed.
Lemma swap_back w a w' : do_swap_local w a = Ok w' -> do_swap w a = Ok w'.
Proof.
  intros H. unfold do_swap, swap_full, do_swap_local in *. cbv zeta in *.
  apply bind_ok in H. destruct H as (u & X & H). rewrite X. cbn [bind]. clear X u.
  apply bind_ok in H. destruct H as (cur & X & H). rewrite X. cbn [bind]. clear X.
  apply bind_ok in H. destruct H as (u & X & H). rewrite X. cbn [bind]. clear X u.
  apply bind_ok in H. destruct H as (u & X & H). rewrite X. cbn [bind]. clear X u.
  apply bind_ok in H. destruct H as (p1 & X & H). rewrite X. cbn [bind]. clear X.
  apply bind_ok in H. destruct H as (fm & X & H). rewrite X. cbn [bind]. clear X.
  apply bind_ok in H. destruct H as (r & X & H). rewrite (process_back _ _ _ _ _ _ _ _ _ _ X). cbn [bind]. clear X.
  apply bind_ok in H. destruct H as (p2 & X & H). rewrite X. cbn [bind]. clear X.
  apply bind_ok in H. destruct H as (w1 & X & H). rewrite X. cbn [bind]. clear X. rewrite H. reflexivity.
Qed.

(** ** C94 *)

(** Operator instructions are signed by an admin; the test build takes everybody for one. *)
Definition by_admin (w : world) (o : op) : Prop :=
  match o with OCreateOperator s _ _ | OCloseOperator s _ => In s (w_admins w) | _ => True end.

(** In every reachable state every instruction is accepted by the test build exactly if the deployed program
    accepts it, and with the same result. *)
Theorem C94_same_instructions : forall w o w', reachable w -> by_admin w o ->
  (exec_local w o = Ok w' <-> exec w o = Ok w').
Proof.
  intros w o w' R B. destruct o; try (cbn [exec_local]; reflexivity).
  - cbn [exec_local]. unfold exec. destruct (require (args_ok (OSwap a)) EInvalidInput) as [u|e] eqn:Q; cbn [bind]; [|split; discriminate].
    split; [apply swap_back|]. apply swap_agree; [exact R|]. apply require_ok in Q. cbn [args_ok] in Q. unfold u64b in Q. lia.
  - cbn [exec_local by_admin] in *. unfold exec, create_operator, check_admin, create_operator_local.
    rewrite (proj2 (existsb_exists _ _)) by (eexists; split; [exact B|apply Z.eqb_refl]). reflexivity.
  - cbn [exec_local by_admin] in *. unfold exec, close_operator, check_admin, close_operator_local.
    rewrite (proj2 (existsb_exists _ _)) by (eexists; split; [exact B|apply Z.eqb_refl]). reflexivity.
Qed.

(** So every history leads to the same state in both. *)
Theorem C94_same_histories : forall w0 ops, initial w0 -> Forall (by_admin w0) ops ->
  run_local w0 ops = run w0 ops.
Proof.
  intros w0 ops J. induction ops as [|o ops IH] using rev_ind; intros F; [reflexivity|].
  apply Forall_app in F. destruct F as (F & FO). specialize (IH F). inversion FO as [|? ? B _]; subst.
  unfold run_local, run in *. rewrite !fold_left_app. cbn [fold_left]. rewrite IH. fold (run w0 ops).
  assert (R : reachable (run w0 ops)) by (exists w0, ops; auto).
  assert (AD : w_admins (run w0 ops) = w_admins w0) by exact (fr_admins _ _ (run_frame ops w0 (reachable_inv _ (start_reach _ J)))).
  assert (B' : by_admin (run w0 ops) o) by (destruct o; cbn [by_admin] in *; rewrite ?AD; exact B).
  unfold step_local, step. pose proof (fun w' => C94_same_instructions _ o w' R B') as S.
  destruct (exec_local (run w0 ops) o) as [x|e] eqn:X.
  - rewrite (proj1 (S x) eq_refl). reflexivity.
  - destruct (exec (run w0 ops) o) as [y|e'] eqn:Y; [|reflexivity]. pose proof (proj2 (S y) eq_refl) as C. discriminate.
Qed.

(** The amounts to migrate with are the same, and fail in the same way, for every price within the range and all terms. *)
Theorem C94_same_amounts : forall h price threshold pct,
  MIN_SQRT_PRICE <= price <= MAX_SQRT_PRICE -> 0 < threshold <= U64_MAX -> 0 <= pct <= 99 ->
  migration_amounts_1_local h price threshold pct = migration_amounts_1 h price threshold pct.
Proof.
  intros h price threshold pct P T C. unfold migration_amounts_1_local, migration_amounts_1.
  destruct (migration_quote_ok threshold pct T C) as (q & f & Q & QE & FE & Q0 & F0). rewrite Q. cbn [bind fst].
  destruct h; [reflexivity|].
  destruct (liquidity_from_delta_quote q MIN_SQRT_PRICE price) as [l|e] eqn:L; [|reflexivity]. cbn [bind].
  destruct (delta_base_256 price MAX_SQRT_PRICE l Up) as [b|e] eqn:B; [|reflexivity]. cbn [bind].
  destruct (require (b <=? U64_MAX) EMathOverflow) as [u|e] eqn:RQ; [|reflexivity]. cbn [bind].
  destruct (scast U64_MAX b) as [b'|e] eqn:SB; [|reflexivity]. cbn [bind].
  unfold get_initialize_amounts, delta_base. rewrite B. cbn [bind]. rewrite RQ. cbn [bind]. rewrite SB. cbn [bind].
  unfold liquidity_from_delta_quote in L. apply bind_ok in L. destruct L as (d & D & L). apply bind_ok in L. destruct L as (x & X & L).
  unfold ssub in D. destruct (MIN_SQRT_PRICE <=? price) eqn:PM; [|discriminate]. apply Ok_inj in D. subst d.
  unfold sdiv in X. destruct (price - MIN_SQRT_PRICE =? 0) eqn:Z0; [discriminate|]. apply Ok_inj in X. subst x.
  unfold scast in L. destruct (q * Q128 / (price - MIN_SQRT_PRICE) <=? U128_MAX) eqn:UL; [|discriminate]. apply Ok_inj in L.
  set (w := price - MIN_SQRT_PRICE) in *. assert (W : 0 < w) by lia.
  assert (LW : l * w <= q * Q128) by (subst l; rewrite Z.mul_comm; apply Z.mul_div_le; exact W).
  assert (L0 : 0 <= l) by (subst l; apply Z.div_pos; [apply Z.mul_nonneg_nonneg; [lia|unfold Q128; lia]|exact W]).
  assert (LE : cdiv (l * w) Q128 <= q) by (apply cdiv_le; [reflexivity|lia]).
  assert (QU : q <= U64_MAX) by lia.
  unfold delta_quote, delta_quote_256.
  assert (PS : psub price MIN_SQRT_PRICE = Ok w) by (unfold psub; rewrite PM; reflexivity). rewrite PS. cbn [bind].
  assert (BIG : l * w <= U256_MAX).
  { apply Z.le_trans with (q * Q128); [exact LW|]. apply Z.le_trans with (U64_MAX * Q128).
    - apply Z.mul_le_mono_nonneg_r; [unfold Q128; lia|exact QU].
    - unfold U64_MAX, Q128, U256_MAX. lia. }
  rewrite smul_intro by exact BIG. cbn [bind divr].
  rewrite require_true by lia. cbn [bind]. rewrite scast_intro by lia. cbn [bind snd].
  rewrite require_true by lia. reflexivity.
Qed.

(** A config is accepted by the test build exactly if the deployed program accepts it, is the same, and is refused for the
    same reason otherwise. *)
Theorem C94_same_configs : forall q supported spl now quote_mint claimer leftover, params_typed q ->
  create_config_local q supported spl now quote_mint claimer leftover
  = create_config q supported spl now quote_mint claimer leftover.
Proof.
  intros q supported spl now quote_mint claimer leftover T. unfold create_config_local, create_config.
  destruct (params_validate q supported spl now) as [[]|e] eqn:V; cbn [bind]; [|reflexivity].
  destruct (validate_inv _ _ _ _ V) as (_ & VP).
  destruct (get_migration_threshold_price (q_threshold q) (q_start q) (q_curve q)) as [mig|e] eqn:M; cbn [bind]; [|reflexivity].
  destruct (require (mig <? MAX_SQRT_PRICE) EInvalidCurve) as [u|e] eqn:R; cbn [bind]; [|reflexivity].
  destruct (get_base_token_for_swap (q_start q) mig (q_curve q)) as [sw|e]; cbn [bind]; [|reflexivity].
  destruct (scast U64_MAX sw) as [sb|e]; cbn [bind]; [|reflexivity].
  destruct (require (migrated_mode_ok (q_migrated_collect_mode q)) ETypeCastFailed) as [u'|e]; cbn [bind]; [|reflexivity].
  cbv zeta. rewrite C94_same_amounts; [reflexivity|..].
  - destruct (curve_validate_ok _ _ (va_curve _ _ _ VP)) as (S & _ & _ & W & _).
    assert (S0 : 0 < q_start q) by (unfold MIN_SQRT_PRICE in S; lia).
    destruct (threshold_price_ok _ _ _ _ S0 W ltac:(eapply Forall_impl; [|exact (pt_curve _ T)]; intros z Z0; apply Z0) (va_threshold _ _ _ VP) M) as ((A & _) & _).
    apply require_ok in R. lia.
  - split; [exact (va_threshold _ _ _ VP)|]. pose proof (pt_threshold _ T) as U. unfold u64ok in U. lia.
  - pose proof (va_mf _ _ _ VP) as F. unfold migration_fee_validate in F. pose proof (pt_mfp _ T) as U. unfold u8ok in U.
    apply bind_ok in F. destruct F as (x & F & _). apply require_ok in F. unfold MAX_MIGRATION_FEE_PERCENTAGE in F. lia.
Qed.

(** A purchase, an operator named by the admin, and a purchase of everything that is left on the curve: the last one goes through the
    new checks and completes the curve. *)
Example C94_case_completes :
  let ops := [OSwap (req QuoteToBase 0 30000000000 0 1700000000); OCreateOperator 99 77 1;
              OSwap (req QuoteToBase 1 9000000000000 0 1700000030)] in
  initial wF /\ Forall (by_admin wF) ops /\ is_curve_complete (w_pool (run_local wF ops)) (c_threshold (w_config wF)) = true
  /\ run_local wF ops = run wF ops.
Proof.
  cbv zeta. split; [exact initialF|]. split; [repeat constructor; vm_compute; tauto|]. split; vm_compute; reflexivity.
Qed.

Example C94_case_config : params_typed fx_paramsF /\ create_config_local fx_paramsF true true 1700000000 11 22 33 = Ok cfgF.
Proof. split; [exact typedF|vm_compute; reflexivity]. Qed.

(** Without the hypothesis on operators the two differ: in the test build a stranger makes themselves an operator. *)
Example C94_case_stranger : exists w', exec_local wF (OCreateOperator 4242 4242 1) = Ok w'
  /\ exec wF (OCreateOperator 4242 4242 1) = Err EInvalidAdmin.
Proof. eexists. split; vm_compute; reflexivity. Qed.

Print Assumptions C94_same_instructions.
Print Assumptions C94_same_histories.
Print Assumptions C94_same_amounts.
Print Assumptions C94_same_configs.
