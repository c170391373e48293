(** * C43: the off-chain quotes agree with the on-chain swaps. *)
From Coq Require Import ZArith QArith List Bool Lia ZifyBool.
From Verif Require Import Base MathModel CurveModel FeeModel ConfigModel PoolModel TxModel
  SystemModel Fixtures Spec Lib CurveProofs CurveLoops Potential CalcProofs ConfigProofs FeeProofs
  SwapProofs InvProofs InvOps InvReach FixturesReach PropSwap Effects Frame Bounds PropSafe PropVol
  TxTree PropTx Live PropSell PropBuy SdkModel.
Import ListNotations.
Open Scope Z_scope.
#[local] Arguments Z.pow : simpl never.
#[local] Arguments Z.testbit : simpl never.

(** ** The fee rate only reads the accumulator, which the pre-swap update leaves alone *)
Lemma references_keep_va df vt price now vt' :
  update_references df vt price now = Ok vt' -> vt_va vt' = vt_va vt.
Proof.
  unfold update_references. cbv zeta. intros H.
  destruct (df_filter df <=? _); [|minv; reflexivity].
  destruct (_ <? df_decay df); minv; reflexivity.
Qed.

Lemma pre_keeps_va c p now vt : pre_tracker c p now vt -> vt_va vt = vt_va (p_tracker p).
Proof.
  unfold pre_tracker. cbv zeta. destruct (dyn_enabled _); [apply references_keep_va|intros ->; reflexivity].
Qed.

Lemma variable_fee_va df vt vt' :
  vt_va vt' = vt_va vt -> variable_fee_numerator df vt' = variable_fee_numerator df vt.
Proof. intros E. unfold variable_fee_numerator. rewrite E. reflexivity. Qed.

Lemma num_included_va c p vt cur x d el :
  vt_va vt = vt_va (p_tracker p) ->
  num_included c (set_tracker p vt) cur x d el = num_included c p cur x d el.
Proof.
  intros E. unfold num_included, total_num_included, total_fee_numerator.
  change (p_tracker (set_tracker p vt)) with vt. change (p_activation (set_tracker p vt)) with (p_activation p).
  rewrite (variable_fee_va _ _ _ E). reflexivity.
Qed.

Lemma num_excluded_va c p vt cur x d el :
  vt_va vt = vt_va (p_tracker p) ->
  num_excluded c (set_tracker p vt) cur x d el = num_excluded c p cur x d el.
Proof.
  intros E. unfold num_excluded, total_num_excluded, total_fee_numerator.
  change (p_tracker (set_tracker p vt)) with vt. change (p_activation (set_tracker p vt)) with (p_activation p).
  rewrite (variable_fee_va _ _ _ E). reflexivity.
Qed.

Lemma bind_ext {A B} (m : res A) (f g : A -> res B) : (forall x, f x = g x) -> bind m f = bind m g.
Proof. intros H. destruct m; simpl; auto. Qed.

Lemma exact_in_va c p vt x fm d cur el :
  vt_va vt = vt_va (p_tracker p) ->
  swap_exact_in c (set_tracker p vt) x fm d cur el = swap_exact_in c p x fm d cur el.
Proof. intros E. unfold swap_exact_in. rewrite num_included_va by exact E. reflexivity. Qed.

Lemma partial_va c p vt x fm d cur el :
  vt_va vt = vt_va (p_tracker p) ->
  swap_partial c (set_tracker p vt) x fm d cur el = swap_partial c p x fm d cur el.
Proof.
  intros E. unfold swap_partial. rewrite num_included_va by exact E.
  change (p_price (set_tracker p vt)) with (p_price p).
  apply bind_ext; intros n. apply bind_ext; intros f. apply bind_ext; intros r.
  f_equal. destruct (negb _); [|reflexivity]. apply bind_ext; intros y.
  destruct (fm_on_input fm); [|reflexivity]. rewrite num_excluded_va by exact E. reflexivity.
Qed.

Lemma exact_out_va c p vt x fm d cur el :
  vt_va vt = vt_va (p_tracker p) ->
  swap_exact_out c (set_tracker p vt) x fm d cur el = swap_exact_out c p x fm d cur el.
Proof.
  intros E. unfold swap_exact_out. change (p_price (set_tracker p vt)) with (p_price p).
  rewrite num_excluded_va by exact E. apply bind_ext; intros [[[a b] e] f].
  apply bind_ext; intros r. apply bind_ext; intros u. rewrite num_excluded_va by exact E. reflexivity.
Qed.

(** ** A referral only re-labels part of the protocol's share *)
Lemma split_with_referral fee t p r :
  0 <= fee -> split_fees fee false = Ok (t, p, r) ->
  r = 0 /\ exists rf, split_fees fee true = Ok (t, p - rf, rf).
Proof.
  intros F H. unfold split_fees in *. apply bind_ok in H. destruct H as (q & Q & H).
  apply bind_ok in H. destruct H as (t0 & T & H). cbn [bind] in H. apply bind_ok in H. destruct H as (p0 & P & H).
  rewrite Q. cbn [bind]. rewrite T. cbn [bind]. apply ssub_ok in P. destruct P as (-> & P). injection H as <- EP <-.
  split; [reflexivity|].
  apply mul_div_cast_down in Q. unfold PROTOCOL_FEE_PERCENT, HOST_FEE_PERCENT in *.
  assert (Q1 : q <= U64_MAX) by tauto. assert (Q0 : 0 <= q) by lia.
  assert (P2 : 0 <= q * 20 / 100 <= q).
  { split; [apply Z.div_pos; lia|]. apply Z.div_le_upper_bound; lia. }
  rewrite mul_div_cast_down_intro; unfold U64_MAX, U128_MAX in *; try lia. cbn [bind].
  rewrite ssub_intro by lia. cbn [bind]. exists (q * 20 / 100). do 3 f_equal. lia.
Qed.

Lemma split_without_referral fee t p r :
  0 <= fee -> split_fees fee true = Ok (t, p, r) -> split_fees fee false = Ok (t, p + r, 0).
Proof.
  intros F H. unfold split_fees in *. apply bind_ok in H. destruct H as (q & Q & H).
  apply bind_ok in H. destruct H as (t0 & T & H). apply bind_ok in H. destruct H as (r0 & R & H).
  apply bind_ok in H. destruct H as (p0 & P & H).
  rewrite Q. cbn [bind]. rewrite T. cbn [bind]. apply ssub_ok in P. destruct P as (-> & P). injection H as <- <- <-.
  apply mul_div_cast_down in Q. apply mul_div_cast_down in R. unfold PROTOCOL_FEE_PERCENT, HOST_FEE_PERCENT in *.
  assert (Q0 : 0 <= q) by (destruct Q as (-> & _); apply Z.div_pos; lia).
  rewrite ssub_intro by lia. cbn [bind]. rewrite Z.sub_0_r, Z.sub_add. reflexivity.
Qed.

Lemma included_fee_nonneg num x incl fee : get_included_fee_amount num x = Ok (incl, fee) -> 0 <= fee.
Proof.
  unfold get_included_fee_amount. intros H. minv. injection H as <- <-. lia.
Qed.

(** What an exact-output result looks like when its referral share goes to the protocol. *)
Definition without_referral (r : swap_result) : swap_result :=
  mkSwapResult (sr_included r) (sr_excluded r) (sr_left r) (sr_output r) (sr_price r) (sr_trading r)
    (sr_protocol r + sr_referral r) 0.

Definition noref (fm : fee_mode) : fee_mode := mkFeeMode (fm_on_input fm) (fm_on_base fm) false.

Lemma fees_noref num x incl tr pr rf fm :
  (do ie <- get_included_fee_amount num x ;;
   let '(i, fee) := ie in
   do s <- split_fees fee (fm_referral fm) ;;
   let '(t, p, r) := s in Ok (i, t, p, r)) = Ok (incl, tr, pr, rf) ->
  (do ie <- get_included_fee_amount num x ;;
   let '(i, fee) := ie in
   do s <- split_fees fee false ;;
   let '(t, p, r) := s in Ok (i, t, p, r)) = Ok (incl, tr, pr + rf, 0).
Proof.
  intros H. apply bind_ok in H. destruct H as ([i fee] & E & H).
  apply bind_ok in H. destruct H as ([[t p] r] & S & H). injection H as -> -> -> ->.
  rewrite E. cbn [bind]. destruct (fm_referral fm).
  - apply split_without_referral in S; [|eapply included_fee_nonneg; eauto]. rewrite S. reflexivity.
  - pose proof S as S'. apply split_with_referral in S'; [|eapply included_fee_nonneg; eauto].
    destruct S' as (-> & _). rewrite S. cbn [bind]. do 3 f_equal. lia.
Qed.

Lemma exact_out_noref c p x fm d cur el r :
  swap_exact_out c p x fm d cur el = Ok r ->
  swap_exact_out c p x (noref fm) d cur el = Ok (without_referral r).
Proof.
  unfold swap_exact_out, noref. cbn [fm_on_input fm_referral]. intros H.
  destruct (fm_on_input fm) eqn:O.
  - cbn [bind] in *. apply bind_ok in H. destruct H as (fo & F & H). rewrite F. cbn [bind].
    apply bind_ok in H. destruct H as (u & U & H). rewrite U. cbn [bind].
    apply bind_ok in H. destruct H as ([[[i t] q] rf] & K & H). injection H as <-.
    apply bind_ok in K. destruct K as (num & N & K). rewrite N. cbn [bind].
    apply fees_noref in K. rewrite K. reflexivity.
  - apply bind_ok in H. destruct H as ([[[g t] q] rf] & K & H).
    apply bind_ok in K. destruct K as (num & N & K). rewrite N. cbn [bind].
    apply fees_noref in K. rewrite K. cbn [bind].
    apply bind_ok in H. destruct H as (fo & F & H). rewrite F. cbn [bind].
    apply bind_ok in H. destruct H as (u & U & H). rewrite U. cbn [bind] in *. injection H as <-. reflexivity.
Qed.

Lemma fees_ref num x incl tr pr rf0 ref :
  (do ie <- get_included_fee_amount num x ;;
   let '(i, fee) := ie in
   do s <- split_fees fee false ;;
   let '(t, p, r) := s in Ok (i, t, p, r)) = Ok (incl, tr, pr, rf0) ->
  rf0 = 0 /\ exists rf, (do ie <- get_included_fee_amount num x ;;
   let '(i, fee) := ie in
   do s <- split_fees fee ref ;;
   let '(t, p, r) := s in Ok (i, t, p, r)) = Ok (incl, tr, pr - rf, rf).
Proof.
  intros H. apply bind_ok in H. destruct H as ([i fee] & E & H).
  apply bind_ok in H. destruct H as ([[t p] r] & S & H). injection H as -> -> -> ->.
  pose proof (included_fee_nonneg _ _ _ _ E) as F0.
  destruct (split_with_referral _ _ _ _ F0 S) as (-> & rf & S').
  split; [reflexivity|]. rewrite E. cbn [bind]. destruct ref.
  - exists rf. rewrite S'. reflexivity.
  - exists 0. rewrite S. cbn [bind]. do 3 f_equal. lia.
Qed.

Lemma exact_out_ref c p x fm d cur el q :
  swap_exact_out c p x (noref fm) d cur el = Ok q ->
  exists r, swap_exact_out c p x fm d cur el = Ok r /\ q = without_referral r.
Proof.
  unfold swap_exact_out, noref, without_referral. cbn [fm_on_input fm_referral]. intros H.
  destruct (fm_on_input fm) eqn:O.
  - cbn [bind] in *. apply bind_ok in H. destruct H as (fo & F & H). rewrite F. cbn [bind].
    apply bind_ok in H. destruct H as (u & U & H). rewrite U. cbn [bind].
    apply bind_ok in H. destruct H as ([[[i t] pr] rf] & K & H). injection H as <-.
    apply bind_ok in K. destruct K as (num & N & K). rewrite N. cbn [bind].
    apply (fees_ref _ _ _ _ _ _ (fm_referral fm)) in K. destruct K as (-> & rf' & K). rewrite K. cbn [bind].
    eexists. split; [reflexivity|]. simpl. f_equal. lia.
  - apply bind_ok in H. destruct H as ([[[g t] pr] rf] & K & H).
    apply bind_ok in K. destruct K as (num & N & K). rewrite N. cbn [bind].
    apply (fees_ref _ _ _ _ _ _ (fm_referral fm)) in K. destruct K as (-> & rf' & K). rewrite K. cbn [bind].
    apply bind_ok in H. destruct H as (fo & F & H). rewrite F. cbn [bind].
    apply bind_ok in H. destruct H as (u & U & H). rewrite U. cbn [bind] in *. injection H as <-.
    eexists. split; [reflexivity|]. simpl. f_equal. lia.
Qed.

(** ** The quote matching a swap request *)

(** The quote function a client calls before sending the swap [a] to the pool of [w]; [entitled] is
    what it passes as [eligible_for_first_swap_with_min_fee]. *)
Definition quote_for (w : world) (a : swap_args) (entitled : bool) : res swap_result :=
  let sell := match sa_dir a with BaseToQuote => true | QuoteToBase => false end in
  let f := if sa_mode a =? 0 then quote_exact_in else quote_partial_fill in
  if sa_mode a =? 2
  then quote_exact_out (w_pool w) (w_config w) sell (sa_now a) (sa_slot a) (sa_amount0 a) entitled
  else f (w_pool w) (w_config w) sell (sa_now a) (sa_slot a) (sa_amount0 a) (is_some (sa_referral a))
         entitled.

Lemma prepare_eq c p d now slot amount ref fm :
  cfg_ok c -> p_quote p < c_threshold c -> 0 < amount ->
  get_fee_mode (c_collect_fee_mode c) d ref = Ok fm ->
  sdk_prepare c p (match d with BaseToQuote => true | QuoteToBase => false end) now slot amount ref
  = Ok (point_of c slot now, d, fm).
Proof.
  intros K O A FM. unfold sdk_prepare, is_curve_complete, point_of.
  rewrite !require_true by lia. cbn [bind].
  destruct (ok_act _ K) as [E|E]; rewrite E; cbn [activation_of bind]; simpl (_ =? _); cbn iota;
  (replace (if match d with BaseToQuote => true | QuoteToBase => false end then BaseToQuote else QuoteToBase)
    with d by (destruct d; reflexivity)); rewrite FM; reflexivity.
Qed.

Lemma fee_mode_noref c d ref fm :
  get_fee_mode c d ref = Ok fm -> get_fee_mode c d false = Ok (noref fm).
Proof.
  unfold get_fee_mode. intros H. apply bind_ok in H. destruct H as (cm & -> & H). apply Ok_inj in H. subst fm.
  cbn [bind]. destruct cm, d; reflexivity.
Qed.

(** The result of the quote that belongs to a swap result. *)
Definition quoted (mode : Z) (r : swap_result) : swap_result :=
  if mode =? 2 then without_referral r else r.

Lemma quote_of_swap w a cur fm vt el r :
  cfg_ok (w_config w) -> p_quote (w_pool w) < c_threshold (w_config w) -> 0 < sa_amount0 a ->
  current_point (w_config w) (sa_slot a) (sa_now a) = Ok cur ->
  get_fee_mode (c_collect_fee_mode (w_config w)) (sa_dir a) (is_some (sa_referral a)) = Ok fm ->
  pre_tracker (w_config w) (w_pool w) (sa_now a) vt ->
  process_swap (w_config w) (set_tracker (w_pool w) vt) (sa_mode a) (sa_amount0 a) (sa_amount1 a) fm
    (sa_dir a) cur el = Ok r ->
  quote_for w a el = Ok (quoted (sa_mode a) r)
  /\ (sa_mode a = 0 \/ sa_mode a = 1 \/ sa_mode a = 2).
Proof.
  intros K O A CP FM PT PS. rewrite current_point_of in CP by exact K. apply Ok_inj in CP. subst cur.
  apply pre_keeps_va in PT. unfold quote_for, quoted, quote_exact_in, quote_partial_fill, quote_exact_out.
  unfold process_swap in PS. cbv zeta.
  destruct (sa_mode a =? 0) eqn:M0.
  - replace (sa_mode a =? 2) with false by lia. rewrite (prepare_eq _ _ _ _ _ _ _ _ K O A FM). cbn [bind].
    apply bind_ok in PS. destruct PS as (x & E & PS). apply bind_ok in PS. destruct PS as (u & _ & PS).
    apply Ok_inj in PS. subst x. rewrite exact_in_va in E by exact PT. split; [exact E|lia].
  - destruct (sa_mode a =? 1) eqn:M1.
    + replace (sa_mode a =? 2) with false by lia. rewrite (prepare_eq _ _ _ _ _ _ _ _ K O A FM). cbn [bind].
      apply bind_ok in PS. destruct PS as (x & E & PS). apply bind_ok in PS. destruct PS as (u & _ & PS).
      apply Ok_inj in PS. subst x. rewrite partial_va in E by exact PT. split; [exact E|lia].
    + destruct (sa_mode a =? 2) eqn:M2; [|discriminate].
      rewrite (prepare_eq _ _ _ _ _ _ _ _ K O A (fee_mode_noref _ _ _ _ FM)). cbn [bind].
      apply bind_ok in PS. destruct PS as (x & E & PS). apply bind_ok in PS. destruct PS as (u & _ & PS).
      apply Ok_inj in PS. subst x. rewrite exact_out_va in E by exact PT.
      split; [apply exact_out_noref; exact E|lia].
Qed.

(** Whenever a swap executes, the quote a client computes from the accounts as they were before the
    swap, at the same time and with the right entitlement flag, succeeds and names the amounts that
    then move: what is paid in, what is received, the new price, the part of the payment that enters the
    reserve, the trading fee, and the protocol's and referrer's shares. The exact-output quote has
    no referral parameter and reports the two shares as one. *)
Theorem C43_quote_matches : forall w a w' entitled,
  reachable w -> exec w (OSwap a) = Ok w' -> (entitled = true <-> bundle_entitled w a) ->
  exists q protocol referral,
    let ft := if c_collect_fee_mode (w_config w) =? 0 then TQuote else token_out (sa_dir a) in
    let p := w_pool w in let p' := w_pool w' in
    quote_for w a entitled = Ok q
    /\ w_log w' = w_log w ++ swap_movements a (sr_included q) (sr_output q) ft referral
    /\ p_price p' = sr_price q
    /\ reserve (token_in (sa_dir a)) p' - reserve (token_in (sa_dir a)) p = sr_excluded q
    /\ (forall t, t = TBase \/ t = TQuote ->
         partner_fees t p' + creator_fees t p'
           = partner_fees t p + creator_fees t p + on ft t (sr_trading q)
         /\ protocol_fees t p' = protocol_fees t p + on ft t protocol)
    /\ protocol + referral = sr_protocol q + sr_referral q
    /\ (sa_mode a <> 2 \/ sa_referral a = None -> protocol = sr_protocol q /\ referral = sr_referral q)
    (* and the record emitted with the swap is the quote, up to those shares *)
    /\ exists r, swap_full w a = Ok (w', r) /\ sr_left r = sr_left q.
Proof.
  intros w a w' el R H EL. pose proof (reachable_inv _ R) as I.
  pose proof (created_cfg_ok _ (iv_created _ I)) as K. pose proof (created_fees_ok _ (iv_created _ I)) as F.
  unfold exec in H. apply bind_ok in H. destruct H as (u & A & H). apply require_ok in A.
  simpl in A. repeat rewrite andb_true_iff in A. destruct A as (((A0 & _) & _) & _).
  apply u64b_ok in A0. unfold do_swap in H. apply bind_ok in H. destruct H as ([w2 r] & S & H).
  apply Ok_inj in H. simpl in H. subst w2. pose proof S as S0.
  apply swap_full_effect in S; auto; [|apply (iv_price _ I)|lia].
  destruct S as (fm & num & fee & gross & pf & cf & cur & p1 & E & PRE & PS).
  assert (AP : 0 < sa_amount0 a).
  { unfold swap_full in S0. cbv zeta in S0. apply bind_ok in S0. destruct S0 as (x & X & _).
    apply require_ok in X. lia. }
  pose proof (pre_swap_tracker _ _ _ _ PRE) as (vt & -> & PT).
  pose proof (se_open _ _ _ _ _ _ _ _ _ _ _ E) as OP. pose proof (se_fm _ _ _ _ _ _ _ _ _ _ _ E) as FM.
  pose proof (se_point _ _ _ _ _ _ _ _ _ _ _ E) as CP.
  assert (EE : first_swap_eligible (w_config w) (w_pool w) (w_key w) (is_some (sa_referral a)) (sa_view a) = el).
  { pose proof (eligible_iff w a) as EI. destruct el, (first_swap_eligible _ _ _ _ _); intuition congruence. }
  rewrite EE in PS. destruct (quote_of_swap _ _ _ _ _ _ _ K OP AP CP FM PT PS) as (QE & MD).
  exists (quoted (sa_mode a) r), (sr_protocol r), (sr_referral r). cbv zeta.
  pose proof (se_facts _ _ _ _ _ _ _ _ _ _ _ E) as SF.
  pose proof (log_movements _ _ _ _ _ _ _ _ _ _ _ E) as LG.
  destruct (effect_applied _ _ _ _ _ _ _ _ _ _ _ E) as (p2 & APP & SM).
  assert (FT : ftok fm = (if c_collect_fee_mode (w_config w) =? 0 then TQuote else token_out (sa_dir a))).
  { unfold get_fee_mode in FM. apply bind_ok in FM. destruct FM as (cm & CM & FM).
    apply Ok_inj in FM. unfold collect_of in CM. subst fm.
    destruct (c_collect_fee_mode (w_config w) =? 0); [|destruct (c_collect_fee_mode (w_config w) =? 1); [|discriminate]];
    apply Ok_inj in CM; subst cm; destruct (sa_dir a); reflexivity. }
  rewrite <- FT.
  assert (QF : sr_included (quoted (sa_mode a) r) = sr_included r /\ sr_output (quoted (sa_mode a) r) = sr_output r
     /\ sr_price (quoted (sa_mode a) r) = sr_price r /\ sr_excluded (quoted (sa_mode a) r) = sr_excluded r
     /\ sr_trading (quoted (sa_mode a) r) = sr_trading r /\ sr_left (quoted (sa_mode a) r) = sr_left r
     /\ sr_protocol (quoted (sa_mode a) r) + sr_referral (quoted (sa_mode a) r) = sr_protocol r + sr_referral r
     /\ (sa_mode a <> 2 \/ sr_referral r = 0 -> sr_protocol r = sr_protocol (quoted (sa_mode a) r)
          /\ sr_referral r = sr_referral (quoted (sa_mode a) r))).
  { unfold quoted, without_referral. destruct (sa_mode a =? 2) eqn:M; simpl; repeat split; lia. }
  destruct QF as (Q1 & Q2 & Q3 & Q4 & Q5 & Q6 & Q7 & Q8). rewrite Q1, Q2, Q3, Q4, Q5, Q6.
  split; [exact QE|]. split; [exact LG|].
  apply fee_mode_cases in FM. destruct FM as (FR & FB & FD).
  destruct SF as [_ _ _ FN PARTS _ OUT _ _ _ _ _ _ _].
  apply parts_sum in PARTS; auto. destruct PARTS as (_ & _ & _ & _ & PS5).
  destruct APP as [SPL PPR _ PB PQ _ _ _ _ APB APQ CB CQ PRB PRQ _ _ _ _ _].
  destruct SM as (M0 & M1 & M2 & M3 & M4 & M5 & M6 & M7 & M8).
  unfold split_partner_and_creator_fee in SPL.
  split; [congruence|]. split; [|split; [|split; [|split]]].
  - unfold reserve, token_in, fi_dq, fi_db in *. destruct (sa_dir a); lia.
  - assert (SP : pf + cf = sr_trading r).
    { clear - SPL. destruct (_ =? 0); [injection SPL as <- <-; lia|]. apply bind_ok in SPL. destruct SPL as (x & _ & SPL). apply bind_ok in SPL.
      destruct SPL as (y & Y & SPL). apply ssub_ok in Y. injection SPL as <- <-. lia. }
    clear - SP M3 M4 M5 M6 M7 M8 APB APQ CB CQ PRB PRQ.
    intros t [->| ->]; unfold on, ftok, partner_fees, creator_fees, protocol_fees;
    destruct (fm_on_base fm); simpl; lia.
  - lia.
  - intros [M|N]; apply Q8; [auto|]. right. apply PS5. rewrite FR, N. reflexivity.
  - exists r. split; auto.
Qed.

(** Conversely a quote can be acted on: if the quote succeeds, a swap sent at that time with limits
    the quote meets executes, provided the single-swap rule of an active rate limiter is
    respected and the pool's 64-bit counters have room for the quoted amounts. (By the theorem
    above it then moves the quoted amounts.) *)
Theorem C43_quote_executes : forall w a entitled q,
  reachable w -> quote_for w a entitled = Ok q -> (entitled = true <-> bundle_entitled w a) ->
  0 <= sa_mode a <= 2 -> sa_amount0 a <= U64_MAX -> 0 <= sa_amount1 a <= U64_MAX ->
  0 <= sa_slot a <= U64_MAX -> 65535 <= sa_now a <= U64_MAX ->
  (if sa_mode a =? 2 then sr_included q <= sa_amount1 a else sa_amount1 a <= sr_output q) ->
  (~ limiter_active (w_config w) (p_activation (w_pool w))
       (point_of (w_config w) (sa_slot a) (sa_now a)) (sa_dir a)
   \/ validate_single_swap (sa_view a) (w_key w) = Ok tt) ->
  (let p := w_pool w in
   if (c_collect_fee_mode (w_config w) =? 0) || (match sa_dir a with BaseToQuote => true | _ => false end)
   then p_m_protocol_quote p + sr_protocol q <= U64_MAX /\ p_m_trading_quote p + sr_trading q <= U64_MAX
   else p_m_protocol_base p + sr_protocol q <= U64_MAX /\ p_m_trading_base p + sr_trading q <= U64_MAX) ->
  vault (token_in (sa_dir a)) w + sr_included q <= U64_MAX ->
  exists w', exec w (OSwap a) = Ok w'.
Proof.
  intros w a el q R Q EL MD A0 A1 SL NOW SLIP LIM ROOM VR.
  pose proof (reachable_inv _ R) as I. pose proof (iv_created _ I) as C.
  pose proof (created_cfg_ok _ C) as K. pose proof (created_fees_ok _ C) as FK.
  assert (PRE : exists ref fm, sdk_prepare (w_config w) (w_pool w)
       (match sa_dir a with BaseToQuote => true | QuoteToBase => false end) (sa_now a) (sa_slot a) (sa_amount0 a) ref = Ok fm).
  { unfold quote_for, quote_exact_in, quote_exact_out, quote_partial_fill in Q. cbv zeta in Q.
    destruct (sa_mode a =? 2); [|destruct (sa_mode a =? 0)];
    apply bind_ok in Q; destruct Q as (k & PR & _); eauto. }
  destruct PRE as (ref & k & PRE). unfold sdk_prepare in PRE.
  apply bind_ok in PRE. destruct PRE as (u1 & OP & PRE). apply require_ok in OP. unfold is_curve_complete in OP.
  apply bind_ok in PRE. destruct PRE as (u2 & AP & _). apply require_ok in AP. clear u1 u2 k.
  assert (OP' : p_quote (w_pool w) < c_threshold (w_config w)) by lia. assert (AP' : 0 < sa_amount0 a) by lia. clear OP AP.
  destruct (C33_dynamic_fee_bounded w (sa_now a) R) as (vt & _ & PT & _).
  destruct (fee_mode_exists (w_config w) (sa_dir a) (is_some (sa_referral a)) K) as (fm & FM).
  assert (EE : first_swap_eligible (w_config w) (w_pool w) (w_key w) (is_some (sa_referral a)) (sa_view a) = el).
  { pose proof (eligible_iff w a) as EI. destruct el, (first_swap_eligible _ _ _ _ _); intuition congruence. }
  pose proof (pre_keeps_va _ _ _ _ PT) as VA.
  assert (PS : exists r, q = quoted (sa_mode a) r /\
     process_swap (w_config w) (set_tracker (w_pool w) vt) (sa_mode a) (sa_amount0 a) (sa_amount1 a) fm
       (sa_dir a) (point_of (w_config w) (sa_slot a) (sa_now a)) el = Ok r).
  { unfold quote_for, quote_exact_in, quote_exact_out, quote_partial_fill in Q. cbv zeta in Q.
    unfold process_swap, quoted. destruct (sa_mode a =? 2) eqn:M2.
    - rewrite (prepare_eq _ _ _ _ _ _ _ _ K OP' AP' (fee_mode_noref _ _ _ _ FM)) in Q. cbn [bind] in Q.
      apply exact_out_ref in Q. destruct Q as (r & Q & ->). exists r. split; [reflexivity|].
      replace (sa_mode a =? 0) with false by lia. replace (sa_mode a =? 1) with false by lia.
      rewrite exact_out_va by exact VA. rewrite Q. cbn [bind]. rewrite require_true by (simpl in SLIP; lia). reflexivity.
    - exists q. split; [reflexivity|]. destruct (sa_mode a =? 0) eqn:M0.
      + rewrite (prepare_eq _ _ _ _ _ _ _ _ K OP' AP' FM) in Q. cbn [bind] in Q.
        rewrite exact_in_va by exact VA. rewrite Q. cbn [bind]. rewrite require_true by lia. reflexivity.
      + replace (sa_mode a =? 1) with true by lia.
        rewrite (prepare_eq _ _ _ _ _ _ _ _ K OP' AP' FM) in Q. cbn [bind] in Q.
        rewrite partial_va by exact VA. rewrite Q. cbn [bind]. rewrite require_true by lia. reflexivity. }
  destruct PS as (r & -> & PS). rewrite <- EE in PS.
  pose proof PS as PS'. apply process_swap_facts in PS'; auto; [|exact (iv_price _ I)|lia].
  destruct PS' as (num & fee & gross & SF & _).
  pose proof (sf_parts _ _ _ _ _ _ _ _ SF) as PARTS.
  apply parts_sum in PARTS; [|apply (sf_fee_nonneg _ _ _ _ _ _ _ _ SF)]. destruct PARTS as (S1 & S2 & S3 & S4 & _).
  assert (QF : sr_included (quoted (sa_mode a) r) = sr_included r
     /\ sr_trading (quoted (sa_mode a) r) = sr_trading r
     /\ sr_protocol r <= sr_protocol (quoted (sa_mode a) r)).
  { unfold quoted, without_referral. destruct (sa_mode a =? 2); simpl; lia. }
  destruct QF as (Q1 & Q2 & Q3). rewrite Q1 in VR. rewrite Q2 in ROOM. cbv zeta in ROOM.
  assert (FB : fm_on_base fm = negb ((c_collect_fee_mode (w_config w) =? 0)
     || (match sa_dir a with BaseToQuote => true | _ => false end))).
  { unfold get_fee_mode, collect_of in FM. destruct (ok_collect _ K) as [E|E]; rewrite E in *; simpl in FM;
    apply Ok_inj in FM; subst fm; destruct (sa_dir a); reflexivity. }
  apply (swap_finishes w a (point_of (w_config w) (sa_slot a) (sa_now a)) fm vt r); auto.
  - cbn [args_ok]. rewrite !u64b_intro by lia. reflexivity.
  - apply current_point_of; auto.
  - destruct LIM as [L|L]; [apply rate_limit_inactive; auto; apply (reachable_activation _ R)|].
    unfold rate_limit_check. destruct (bf_mode _ =? 2); [|reflexivity].
    unfold rl_applied. destruct (rl_is_zero _); [reflexivity|]. destruct (sa_dir a); [reflexivity|].
    pose proof (fk_base _ FK) as (_ & _ & T & _). unfold u64ok in T.
    pose proof (reachable_activation _ R) as RA.
    rewrite sadd_intro by (unfold U64_MAX, U128_MAX in *; lia). cbn [bind].
    match goal with |- (if ?b then _ else _) = _ => destruct b end; [exact L|reflexivity].
  - lia.
  - rewrite FB. destruct (_ || _); cbn [negb]; lia.
  - unfold vault, token_in in VR. destruct (sa_dir a); exact VR.
Qed.

(** The library refuses a completed curve and a zero amount, as the program does. *)
Theorem C43_quote_refused : forall w a entitled q,
  quote_for w a entitled = Ok q ->
  p_quote (w_pool w) < c_threshold (w_config w) /\ 0 < sa_amount0 a.
Proof.
  intros w a el q Q. unfold quote_for, quote_exact_in, quote_exact_out, quote_partial_fill in Q. cbv zeta in Q.
  assert (PRE : exists ref fm, sdk_prepare (w_config w) (w_pool w)
       (match sa_dir a with BaseToQuote => true | QuoteToBase => false end) (sa_now a) (sa_slot a) (sa_amount0 a) ref = Ok fm).
  { destruct (sa_mode a =? 2); [|destruct (sa_mode a =? 0)];
    apply bind_ok in Q; destruct Q as (k & PR & _); eauto. }
  destruct PRE as (ref & k & PRE). unfold sdk_prepare in PRE.
  apply bind_ok in PRE. destruct PRE as (u1 & OP & PRE). apply require_ok in OP. unfold is_curve_complete in OP.
  apply bind_ok in PRE. destruct PRE as (u2 & AP & _). apply require_ok in AP. lia.
Qed.

(** Swaps of every mode, with and without a referral, on the pool of history A1 (dynamic fee on,
    references stale by 70 seconds): quotes exist, and the swaps execute. *)
Definition sdk_cases : list swap_args :=
  let s := fun ref d mode a0 a1 => mkSwapArgs 500 ref d mode a0 a1 1000 1700000280 plain_view in
  [ s None QuoteToBase 0 2000000000 1; s (Some 600) QuoteToBase 1 2000000000 1;
    s (Some 600) QuoteToBase 2 1000000000 9000000000; s (Some 600) BaseToQuote 0 1000000000000 1;
    s None BaseToQuote 2 10000000 900000000000 ].

Example C43_case : let w := run wA histA1 in
  reachable w /\ dyn_enabled (pf_dyn (c_fees (w_config w))) = true
  /\ 0 < vt_va (p_tracker (w_pool w))
  /\ Forall (fun a => ~ bundle_entitled w a
       /\ (exists q, quote_for w a false = Ok q /\ 0 < sr_output q /\ 0 < sr_protocol q)
       /\ exists w', exec w (OSwap a) = Ok w') sdk_cases.
Proof.
  cbv zeta. split; [apply reachA|]. split; [vm_compute; reflexivity|]. split; [vm_compute; reflexivity|].
  assert (NB : forall a, In a sdk_cases -> ~ bundle_entitled (run wA histA1) a).
  { intros a H (_ & X & _). vm_compute in X. discriminate X. }
  unfold sdk_cases in *.
  repeat (constructor; [split; [apply NB; simpl; tauto|split; [eexists; split; [vm_compute; reflexivity|split; vm_compute; reflexivity]
    |eexists; vm_compute; reflexivity]]|]). constructor.
Qed.

Print Assumptions C43_quote_matches.
Print Assumptions C43_quote_executes.
Print Assumptions C43_quote_refused.
