(** * C86: the swap modes agree. An exact-input swap that executes could as well have been sent as a
    partial fill, and a partial fill is either exactly that exact-input swap or it went to the end of
    the curve. *)
From Coq Require Import ZArith List Bool Lia ZifyBool.
From Verif Require Import Base MathModel CurveModel FeeModel ConfigModel PoolModel TxModel
  SystemModel Fixtures Spec Lib CurveProofs CurveLoops Potential CalcProofs ConfigProofs FeeProofs
  SwapProofs InvProofs InvOps InvReach FixturesReach PropSwap Effects Frame PropTx PropTrade PropLife.
Import ListNotations.
Open Scope Z_scope.
#[local] Arguments Z.pow : simpl never.
#[local] Arguments Z.testbit : simpl never.

(** ** Specification *)

(** The same request in another mode: 0 exact input, 1 partial fill, 2 exact output. *)
Definition with_mode (a : swap_args) (m : Z) : swap_args :=
  mkSwapArgs (sa_user a) (sa_referral a) (sa_dir a) m (sa_amount0 a) (sa_amount1 a) (sa_slot a) (sa_now a) (sa_view a).

(** The price at which a trade in the given direction can go no further. *)
Definition last_price (c : config) (d : direction) : Z :=
  match d with QuoteToBase => c_mig_price c | BaseToQuote => c_start c end.

(** ** The curve *)
Lemma buy_in_rest stop curve : forall low cur amount out r,
  0 < low -> curve_wf low curve -> low <= cur -> cur <= stop -> stop <= top_price low curve ->
  buy_in_loop stop curve cur amount out = Ok r -> fi_left r <> 0 -> fi_price r = stop.
Proof.
  induction curve as [|[p l] rest IH]; intros low cur amount out r P W C ST TP H L.
  - simpl in *. apply Ok_inj in H. subst r. cbn in *. lia.
  - pose proof W as (W1 & W2 & W3). cbn [buy_in_loop] in H. simpl in TP.
    destruct ((p =? 0) || (l =? 0)) eqn:Z0; [lia|].
    destruct (cur <? Z.min stop p) eqn:C1.
    + apply bind_ok in H. destruct H as (mx & _ & H). destruct (amount <? mx).
      * apply bind_ok in H. destruct H as (nx & _ & H). apply bind_ok in H. destruct H as (o & _ & H).
        apply bind_ok in H. destruct H as (o' & _ & H). apply Ok_inj in H. subst r. cbn in L. lia.
      * apply bind_ok in H. destruct H as (o & _ & H). apply bind_ok in H. destruct H as (o' & _ & H).
        apply bind_ok in H. destruct H as (m' & _ & H). apply bind_ok in H. destruct H as (am & _ & H).
        destruct (Z.min stop p =? stop) eqn:E.
        -- apply Ok_inj in H. subst r. cbn. lia.
        -- apply (IH p) in H; auto; lia.
    + destruct (Z_le_gt_dec p cur).
      * apply (IH p) in H; auto; lia.
      * assert (cur = stop) by lia. subst cur. clear - H.
        revert amount out H. induction rest as [|[q m] rest IH]; intros; cbn [buy_in_loop] in H.
        { apply Ok_inj in H. subst r. reflexivity. }
        destruct ((q =? 0) || (m =? 0)); [apply Ok_inj in H; subst r; reflexivity|].
        destruct (stop <? Z.min stop q) eqn:E; [lia|]. eapply IH, H.
Qed.

Lemma fi_rest c price d amount r : cfg_ok c -> c_start c <= price <= c_mig_price c ->
  fi_of_direction c price d amount = Ok r -> fi_left r <> 0 -> fi_price r = last_price c d.
Proof.
  intros K P H L. pose proof (ok_curve _ K) as CO. set (cv := curve_points c) in *.
  pose proof CO as [S [n PAD] NE W M1 M2 MX LQ]. destruct d; cbn [fi_of_direction last_price] in *.
  - unfold calc_sell_from_in in H. apply bind_ok in H. destruct H as (r0 & _ & H).
    destruct (fi_left r0 =? 0) eqn:E0; [apply Ok_inj in H; subst r0; lia|].
    apply bind_ok in H. destruct H as (nx & _ & H). apply bind_ok in H. destruct H as ([nx' lf] & B & H).
    apply bind_ok in H. destruct H as (o & _ & H). apply bind_ok in H. destruct H as (o' & _ & H).
    apply Ok_inj in H. subst r. cbn in *. destruct (nx <? c_start c).
    + apply bind_ok in B. destruct B as (i & _ & B). apply bind_ok in B. destruct B as (l & _ & B).
      apply Ok_inj, pair_inj in B. destruct B. auto.
    + apply Ok_inj, pair_inj in B. destruct B. lia.
  - unfold calc_buy_from_in in H. rewrite PAD, buy_in_pad in H.
    apply (buy_in_rest _ _ (c_start c)) in H; auto; lia.
Qed.

(** ** One swap *)
Lemma exact_is_partial c p amount fm d cur el r :
  swap_exact_in c p amount fm d cur el = Ok r -> swap_partial c p amount fm d cur el = Ok r.
Proof.
  unfold swap_exact_in, swap_partial. intros H.
  apply bind_ok in H. destruct H as (num & -> & H). cbn [bind].
  apply bind_ok in H. destruct H as (f & -> & H). cbn [bind].
  apply bind_ok in H. destruct H as (fi & -> & H). cbn [bind].
  apply bind_ok in H. destruct H as (u & L & H). apply require_ok in L. rewrite L. cbn [negb bind]. exact H.
Qed.

Lemma partial_is_exact c p amount fm d cur el r : cfg_ok c -> c_start c <= p_price p <= c_mig_price c ->
  swap_partial c p amount fm d cur el = Ok r ->
  swap_exact_in c p amount fm d cur el = Ok r
  \/ (swap_exact_in c p amount fm d cur el = Err EInsufficientLiquidity /\ sr_price r = last_price c d).
Proof.
  unfold swap_exact_in, swap_partial. intros K P H.
  apply bind_ok in H. destruct H as (num & -> & H). cbn [bind].
  apply bind_ok in H. destruct H as (f & -> & H). cbn [bind].
  apply bind_ok in H. destruct H as (fi & FI & H). rewrite FI. cbn [bind].
  destruct (fi_left fi =? 0) eqn:L; cbn [negb require bind] in *; [left; exact H|]. right. split; [reflexivity|].
  apply bind_ok in H. destruct H as (k & _ & H). destruct k as ((((i & ac) & tr) & pr) & rf).
  apply bind_ok in H. destruct H as (g & _ & H). apply Ok_inj in H. subst r. cbn [sr_price].
  apply (fi_rest _ _ _ _ _ K P FI). lia.
Qed.

Lemma price_after w a w' fm r num fee gross pf cf cur :
  swap_effect w w' a fm r num fee gross pf cf cur -> p_price (w_pool w') = sr_price r.
Proof.
  intros E. destruct (se_pool _ _ _ _ _ _ _ _ _ _ _ E) as (p2 & A & _ & _ & [(_ & ->)|(_ & _ & ->)]);
    [|change (p_price p2 = sr_price r)]; destruct A; auto.
Qed.

(** ** Theorems *)

(** A swap with exact input that executes has the very same effect when sent as a partial fill. *)
Theorem C86_exact_input_is_a_partial_fill : forall w a w', reachable w -> sa_mode a = 0 ->
  exec w (OSwap a) = Ok w' -> exec w (OSwap (with_mode a 1)) = Ok w'.
Proof.
  intros w a w' R M H. pose proof (reachable_inv _ R) as I.
  destruct (swap_eff _ _ _ I H) as (fm & r & num & fee & gross & pf & cf & cur & p1 & E & PRE & PS & _ & _).
  pose proof (se_point _ _ _ _ _ _ _ _ _ _ _ E) as CP. pose proof (se_fm _ _ _ _ _ _ _ _ _ _ _ E) as FM. clear E.
  unfold exec in *. apply bind_ok in H. destruct H as (u & A & H). apply require_ok in A.
  assert (AO : args_ok (OSwap (with_mode a 1)) = true) by exact A.
  rewrite AO. cbn [require bind]. unfold do_swap in *. apply bind_ok in H. destruct H as ([w2 r'] & S & H).
  apply Ok_inj in H. cbn in H. subst w2. unfold swap_full in *. cbv zeta in *.
  cbn [with_mode sa_user sa_referral sa_dir sa_mode sa_amount0 sa_amount1 sa_slot sa_now sa_view].
  apply bind_ok in S. destruct S as (u1 & -> & S). cbn [bind]. rewrite CP in *. cbn [bind] in *.
  apply bind_ok in S. destruct S as (u2 & -> & S). cbn [bind].
  apply bind_ok in S. destruct S as (u3 & -> & S). cbn [bind].
  rewrite PRE in *. cbn [bind] in *. rewrite FM in *. cbn [bind] in *. rewrite PS in S. cbn [bind] in S.
  unfold process_swap in PS |- *. rewrite M in PS. cbn [Z.eqb Pos.eqb] in *.
  apply bind_ok in PS. destruct PS as (r0 & P0 & PS). rewrite (exact_is_partial _ _ _ _ _ _ _ _ P0). cbn [bind].
  rewrite PS. cbn [bind].
  apply bind_ok in S. destruct S as (p2 & -> & S). cbn [bind].
  apply bind_ok in S. destruct S as (w1 & T & S).
  change (swap_transfers (set_w_pool w p2) (with_mode a 1) fm r) with (swap_transfers (set_w_pool w p2) a fm r).
  rewrite T. cbn [bind]. apply bind_ok in S. destruct S as (w3 & -> & S). cbn [bind].
  apply Ok_inj, pair_inj in S. destruct S as (-> & _). reflexivity.
Qed.

(** A partial fill that executes has the very same effect as the swap with exact input; or that swap
    is refused for want of liquidity and the partial fill takes the price to the end of the curve: the
    migration price for a purchase, whereupon the curve is complete, the starting price for a sale. *)
Theorem C86_partial_fill_stops_only_at_the_end : forall w a w', reachable w -> sa_mode a = 1 ->
  exec w (OSwap a) = Ok w' ->
  exec w (OSwap (with_mode a 0)) = Ok w'
  \/ (exec w (OSwap (with_mode a 0)) = Err EInsufficientLiquidity
      /\ p_price (w_pool w') = last_price (w_config w) (sa_dir a)
      /\ (sa_dir a = QuoteToBase -> c_threshold (w_config w) <= p_quote (w_pool w') /\ p_progress (w_pool w') <> 0)).
Proof.
  intros w a w' R M H. pose proof (reachable_inv _ R) as I.
  pose proof (reachable_exec _ _ _ R H) as R'.
  assert (CW : w_config w' = w_config w) by (destruct (exec_frame _ _ _ I H) as (FR & _); destruct FR; congruence).
  pose proof (created_cfg_ok _ (iv_created _ I)) as K.
  destruct (swap_eff _ _ _ I H) as (fm & r & num & fee & gross & pf & cf & cur & p1 & E & PRE & PS & _ & _).
  pose proof (price_after _ _ _ _ _ _ _ _ _ _ _ E) as PA.
  pose proof (se_point _ _ _ _ _ _ _ _ _ _ _ E) as CP. pose proof (se_fm _ _ _ _ _ _ _ _ _ _ _ E) as FM. clear E.
  unfold exec in *. apply bind_ok in H. destruct H as (u & A & H). apply require_ok in A.
  assert (AO : args_ok (OSwap (with_mode a 0)) = true) by exact A.
  rewrite AO. cbn [require bind]. unfold do_swap in *. apply bind_ok in H. destruct H as ([w2 r'] & S & H).
  apply Ok_inj in H. cbn in H. subst w2. unfold swap_full in *. cbv zeta in *.
  cbn [with_mode sa_user sa_referral sa_dir sa_mode sa_amount0 sa_amount1 sa_slot sa_now sa_view].
  apply bind_ok in S. destruct S as (u1 & -> & S). cbn [bind]. rewrite CP in *. cbn [bind] in *.
  apply bind_ok in S. destruct S as (u2 & -> & S). cbn [bind].
  apply bind_ok in S. destruct S as (u3 & -> & S). cbn [bind].
  destruct (pre_swap_ok _ _ _ _ PRE) as (vt & PT).
  rewrite PRE in *. cbn [bind] in *. rewrite FM in *. cbn [bind] in *. rewrite PS in S. cbn [bind] in S.
  unfold process_swap in PS |- *. rewrite M in PS. cbn [Z.eqb Pos.eqb] in *.
  apply bind_ok in PS. destruct PS as (r0 & P0 & PS).
  assert (PP : c_start (w_config w) <= p_price p1 <= c_mig_price (w_config w)) by (subst p1; apply (iv_price _ I)).
  destruct (partial_is_exact _ _ _ _ _ _ _ _ K PP P0) as [X|(X & Y)]; rewrite X; cbn [bind].
  - left. rewrite PS. cbn [bind].
    apply bind_ok in S. destruct S as (p2 & -> & S). cbn [bind].
    apply bind_ok in S. destruct S as (w1 & T & S).
    change (swap_transfers (set_w_pool w p2) (with_mode a 0) fm r) with (swap_transfers (set_w_pool w p2) a fm r).
    rewrite T. cbn [bind]. apply bind_ok in S. destruct S as (w3 & -> & S). cbn [bind].
    apply Ok_inj, pair_inj in S. destruct S as (-> & _). reflexivity.
  - right. split; [reflexivity|]. apply bind_ok in PS. destruct PS as (u4 & _ & PS). apply Ok_inj in PS. subst r0.
    rewrite <- PA in Y. split; [exact Y|]. intros D. rewrite D in Y. cbn [last_price] in Y. rewrite <- CW in *.
    destruct (C14_end_of_curve_completes w' R') as (C14 & _). specialize (C14 Y). split; [exact C14|].
    intros PZ. apply (iv_complete _ (reachable_inv _ R')) in PZ. lia.
Qed.

(** ** Cases *)
Definition c86_in : swap_args := mkSwapArgs 503 None QuoteToBase 0 20000000000 0 1200 1700000100 plain_view.
Definition c86_more : swap_args := mkSwapArgs 503 None QuoteToBase 1 9000000000000000 0 1200 1700000100 plain_view.
Definition c86_sell : swap_args := mkSwapArgs 503 None BaseToQuote 1 9000000000000000 0 1200 1700000100 plain_view.

(** A purchase in both modes. *)
Example C86_case : exists w', reachable (run wA []) /\ sa_mode c86_in = 0
  /\ exec (run wA []) (OSwap c86_in) = Ok w' /\ exec (run wA []) (OSwap (with_mode c86_in 1)) = Ok w'
  /\ p_price (w_pool w') <> p_price (w_pool (run wA [])).
Proof.
  eexists. split; [apply reachA|]. split; [reflexivity|]. split; [vm_compute; reflexivity|].
  split; [vm_compute; reflexivity|]. vm_compute. discriminate.
Qed.

(** A purchase of more than the curve holds: only the partial fill executes, and it ends the curve. *)
Example C86_case_end : exists w', reachable (run wA []) /\ sa_mode c86_more = 1
  /\ exec (run wA []) (OSwap c86_more) = Ok w'
  /\ exec (run wA []) (OSwap (with_mode c86_more 0)) = Err EInsufficientLiquidity
  /\ p_price (w_pool w') = c_mig_price (w_config (run wA [])) /\ p_progress (w_pool w') = 1.
Proof.
  eexists. split; [apply reachA|]. split; [reflexivity|]. split; [vm_compute; reflexivity|].
  repeat split; vm_compute; reflexivity.
Qed.

(** A sale of more than was bought ends at the starting price. *)
Example C86_case_sale : exists w', let w := run wA [OSwap c86_in] in reachable w /\ sa_mode c86_sell = 1
  /\ exec w (OSwap c86_sell) = Ok w'
  /\ exec w (OSwap (with_mode c86_sell 0)) = Err EInsufficientLiquidity
  /\ p_price (w_pool w') = c_start (w_config w) /\ p_progress (w_pool w') = 0.
Proof.
  eexists. split; [apply reachA|]. split; [reflexivity|]. split; [vm_compute; reflexivity|].
  repeat split; vm_compute; reflexivity.
Qed.

Print Assumptions C86_exact_input_is_a_partial_fill.
Print Assumptions C86_partial_fill_stops_only_at_the_end.
