(** * C100: nothing for nothing. Whoever receives tokens from a trade has paid tokens for it; a trade
    nobody pays for gives nothing, earns no fee and moves neither the price nor the reserves. *)
From Coq Require Import ZArith QArith Qround List Bool Lia ZifyBool Lqa.
From Verif Require Import Base MathModel CurveModel FeeModel ConfigModel PoolModel TxModel
  SystemModel Fixtures Spec Lib CurveProofs CurveLoops Potential CalcProofs ConfigProofs FeeProofs
  SwapProofs InvProofs InvOps InvReach FixturesReach PropSwap Steps Walks PropTrade PropFair PropSpot.
Import ListNotations.
Open Scope Z_scope.
#[local] Arguments Z.pow : simpl never.

(** ** Theorems *)

(** Whatever the fees, the sizes and the rounding: no payment, nothing in return. *)
Theorem C100_nothing_for_nothing : forall w a w' paid got ft x,
  reachable w -> exec w (OSwap a) = Ok w' -> w_log w' = w_log w ++ swap_movements a paid got ft x ->
  0 < got -> 0 < paid.
Proof.
  intros w a w' paid got ft x R H LG G. pose proof (C87_never_better_than_shown _ _ _ _ _ _ _ R H LG) as P.
  pose proof (iv_price _ (reachable_inv _ R)) as PB.
  pose proof (ok_curve _ (created_cfg_ok _ (iv_created _ (reachable_inv _ R)))) as [S _ _ _ _ _ _ _].
  unfold costs_at_least, costs_at_most in P.
  assert (PP : 0 < p_price (w_pool w) ^ 2) by nia.
  set (s := p_price (w_pool w) ^ 2) in *. clearbody s.
  assert (T : 0 < 2 ^ 128) by (vm_compute; reflexivity). set (t := 2 ^ 128) in *. clearbody t.
  destruct (sa_dir a); nia.
Qed.

(** An order for a given amount out is never free, and an order for a given amount in is never empty. *)
Theorem C100_named_amounts : forall w a w' paid got ft x,
  reachable w -> exec w (OSwap a) = Ok w' -> w_log w' = w_log w ++ swap_movements a paid got ft x ->
  sa_mode a = 0 \/ sa_mode a = 2 -> 0 < paid.
Proof.
  intros w a w' paid got ft x R H LG M.
  assert (Z0 : 0 < sa_amount0 a).
  { pose proof H as H0. cbn [exec] in H0. apply bind_ok in H0. destruct H0 as (v0 & _ & H0). unfold do_swap, swap_full in H0. cbv zeta in H0.
    apply bind_ok in H0. destruct H0 as (v & H0 & _). apply bind_ok in H0. destruct H0 as (u & Q & _).
    apply require_ok in Q. lia. }
  destruct M as [M|M].
  - destruct (C02_exact_in _ _ _ R M H) as (g & f & r & L & _). rewrite LG in L. apply movements_inj in L. lia.
  - destruct (C03_exact_out _ _ _ R M H) as (g & f & r & L & _). rewrite LG in L. apply movements_inj in L.
    apply (C100_nothing_for_nothing _ _ _ _ _ _ _ R H LG). lia.
Qed.

(** A trade for which nothing is paid can only be a partial fill that found nothing to fill. It gives nothing
    to the trader and to the referrer, and leaves the price, the reserves, the fees and the vaults alone. *)
Theorem C100_empty_trade : forall w a w' got ft x,
  reachable w -> exec w (OSwap a) = Ok w' -> w_log w' = w_log w ++ swap_movements a 0 got ft x ->
  got = 0 /\ (sa_referral a <> None -> x = 0)
  /\ sa_mode a = 1
  /\ p_price (w_pool w') = p_price (w_pool w)
  /\ forall t, t = TBase \/ t = TQuote ->
       reserve t (w_pool w') = reserve t (w_pool w)
       /\ partner_fees t (w_pool w') = partner_fees t (w_pool w)
       /\ creator_fees t (w_pool w') = creator_fees t (w_pool w)
       /\ protocol_fees t (w_pool w') = protocol_fees t (w_pool w)
       /\ vault t w' = vault t w.
Proof.
  intros w a w' got ft x R H LG.
  assert (NM : sa_mode a <> 0 /\ sa_mode a <> 2).
  { split; intro M; pose proof (C100_named_amounts _ _ _ _ _ _ _ R H LG); lia. }
  destruct (swap_observed _ _ _ R H) as (pd & gt & fe & tr & pr & rf & nu
   & _ & P1 & P2 & P3 & P4 & P5 & L & IN & OUT & _ & -> & _ & _ & CT & _).
  cbv zeta in *. remember (if c_collect_fee_mode (w_config w) =? 0 then TQuote else token_out (sa_dir a)) as f eqn:FE.
  assert (FT : f = token_in (sa_dir a) \/ f = token_out (sa_dir a)).
  { subst f. destruct (c_collect_fee_mode (w_config w) =? 0), (sa_dir a); cbn; auto. }
  clear FE.
  rewrite LG in L.
  assert (XR : sa_referral a <> None -> x = rf).
  { intro NN. apply app_inv_head in L. unfold swap_movements in L. destruct (sa_referral a); [|congruence].
    injection L. auto. }
  apply movements_inj in L. destruct L as (E0 & ->). rewrite <- E0 in IN. clear E0 P1 pd.
  destruct (reach_swap _ _ _ R H) as (K & F & HA & _ & r & fm & num & fee & gross & pf & cf & cur & p1 & E & _ & PS).
  assert (M1' : sa_mode a = 1).
  { unfold process_swap in PS. destruct (sa_mode a =? 0) eqn:Q0; [lia|]. destruct (sa_mode a =? 1) eqn:Q1; [lia|].
    destruct (sa_mode a =? 2) eqn:Q2; [lia|discriminate]. }
  clear PS. pose proof (se_facts _ _ _ _ _ _ _ _ _ _ _ E) as SF.
  destruct (effect_applied _ _ _ _ _ _ _ _ _ _ _ E) as (p2 & AP & SM). destruct SM as (SP & _).
  assert (PR : p_price (w_pool w') = sr_price r) by (rewrite SP; exact (ap_price _ _ _ _ _ _ _ _ _ AP)).
  pose proof (sf_dir _ _ _ _ _ _ _ _ SF) as DR. pose proof (sf_price _ _ _ _ _ _ _ _ SF) as RG. rewrite <- PR in DR, RG.
  pose proof (iv_price _ (reachable_inv _ R)) as PB.
  destruct (C11_rounding_favours_pool _ _ _ R H) as (Q1 & B1). cbv zeta in Q1, B1.
  pose proof (ok_curve _ K) as CO. pose proof CO as [S [n PAD] NE W M1 M2 MX LQ].
  set (c := w_config w) in *. set (p := p_price (w_pool w)) in *. set (q := p_price (w_pool w')) in *.
  assert (FN : 0 <= on f (token_in (sa_dir a)) (tr + pr + rf) /\ 0 <= on f (token_out (sa_dir a)) (tr + pr + rf)).
  { unfold on. destruct f, (sa_dir a); cbn; lia. }
  assert (T : 0 < 2 ^ 128) by (vm_compute; reflexivity).
  assert (KEY : p = q /\ p_base (w_pool w') = p_base (w_pool w) /\ p_quote (w_pool w') = p_quote (w_pool w)).
  { destruct (sa_dir a); cbn [token_in token_out reserve] in IN, OUT, FN; cbn [price_moves] in DR.
    - (* a sale: no base token came in, so the price did not fall *)
      assert (PQ : p = q).
      { destruct (Z.eq_dec p q) as [|N]; [assumption|exfalso].
        pose proof (base_area_strict (c_start c) (curve_points c) q p S W (proj1 RG) ltac:(lia) ltac:(lia)) as ST.
        assert (B2 : (inject_Z (p_base (w_pool w') - p_base (w_pool w)) <= 0)%Q).
        { change 0%Q with (inject_Z 0). rewrite <- Zle_Qle. lia. }
        lra. }
      split; [exact PQ|]. rewrite <- PQ in *.
      assert (B2 : (inject_Z 0 <= inject_Z (p_base (w_pool w') - p_base (w_pool w)))%Q).
      { eapply Qle_trans; [|exact B1]. change (inject_Z 0) with 0%Q. lra. }
      rewrite <- Zle_Qle in B2. split; [lia|]. nia.
    - (* a purchase: no quote token came in, so the price did not rise *)
      assert (PQ : p = q).
      { destruct (Z.eq_dec p q) as [|N]; [assumption|exfalso].
        pose proof (quote_area_strict (c_start c) (curve_points c) p q W (proj1 PB) ltac:(lia) ltac:(lia)) as ST.
        nia. }
      split; [exact PQ|]. rewrite <- PQ in *.
      assert (B2 : (inject_Z 0 <= inject_Z (p_base (w_pool w') - p_base (w_pool w)))%Q).
      { eapply Qle_trans; [|exact B1]. change (inject_Z 0) with 0%Q. lra. }
      rewrite <- Zle_Qle in B2. split; [lia|]. nia. }
  destruct KEY as (PQ & KB & KQ).
  assert (Z3 : gt = 0 /\ tr = 0 /\ pr = 0 /\ rf = 0).
  { unfold on in IN, OUT. destruct FT as [-> | ->]; destruct (sa_dir a); cbn [token_in token_out reserve] in IN, OUT; lia. }
  destruct Z3 as (-> & -> & -> & ->).
  split; [reflexivity|split; [exact XR|split; [exact M1'|split; [symmetry; exact PQ|]]]].
  intros t Ht. destruct (CT t Ht) as (CR & A & B & D).
  assert (ON : on f t 0 = 0) by (unfold on; destruct f, t; reflexivity).
  assert (ON2 : on f t (0 + 0) = 0) by exact ON. rewrite ON in A, B. rewrite ON2 in D.
  rewrite Z.mul_0_l in CR. change (0 / 100) with 0 in CR. rewrite ON in CR.
  assert (RS : reserve t (w_pool w') = reserve t (w_pool w)) by (destruct Ht as [-> | ->]; cbn [reserve]; assumption).
  split; [exact RS|]. split; [lia|]. split; [lia|]. split; lia.
Qed.

(** The other way round is up to the trader: with a minimum of at least one unit nobody pays for nothing. *)
Theorem C100_no_gift : forall w a w' paid got ft x,
  reachable w -> exec w (OSwap a) = Ok w' -> w_log w' = w_log w ++ swap_movements a paid got ft x ->
  sa_mode a <> 2 -> 0 < sa_amount1 a -> 0 < paid /\ 0 < got.
Proof.
  intros w a w' paid got ft x R H LG M A.
  assert (G : sa_amount1 a <= got).
  { destruct (Z.eq_dec (sa_mode a) 0) as [M0|M0].
    - destruct (C02_exact_in _ _ _ R M0 H) as (g & f & r & L & B). rewrite LG in L. apply movements_inj in L. lia.
    - destruct (reach_swap _ _ _ R H) as (K & F & HA & _ & r & fm & num & fee & gross & pf & cf & cur & p1 & E & PRE & PS).
      pose proof (log_movements _ _ _ _ _ _ _ _ _ _ _ E) as L2. rewrite LG in L2. apply movements_inj in L2.
      destruct L2 as (_ & ->).
      unfold process_swap in PS. destruct (sa_mode a =? 0) eqn:Q0; [lia|]. destruct (sa_mode a =? 1) eqn:Q1.
      + apply bind_ok in PS. destruct PS as (r' & S & PS).
        apply bind_ok in PS. destruct PS as (u & LL & PS). apply Ok_inj in PS. subst r'. apply require_ok in LL. lia.
      + destruct (sa_mode a =? 2) eqn:Q2; [lia|discriminate]. }
  split; [|lia]. apply (C100_nothing_for_nothing _ _ _ _ _ _ _ R H LG). lia.
Qed.

(** ** Non-vacuity *)

(** A sale on a pool nobody has bought from, with a referrer named: the partial fill takes and gives nothing,
    and succeeds. *)
Definition c100_sale : swap_args := mkSwapArgs 500 (Some 600) BaseToQuote 1 5000 0 1000 1700000000 plain_view.

Example C100_case_empty : exists w' got ft x, reachable wA /\ exec wA (OSwap c100_sale) = Ok w'
  /\ w_log w' = w_log wA ++ swap_movements c100_sale 0 got ft x
  /\ p_has_swap (w_pool wA) = 0 /\ p_has_swap (w_pool w') = 1.
Proof.
  eexists _, _, TQuote, _. split; [exact (reachA [])|]. split; [vm_compute; reflexivity|].
  split; [vm_compute; reflexivity|]. split; vm_compute; reflexivity.
Qed.

(** One unit of quote for sale: 1123 units of base buy it. One unit of base costs two of quote. *)
Definition c100_out (d : direction) : swap_args :=
  mkSwapArgs 500 None d 2 1 100000000 1600 1700000300 plain_view.

Example C100_case_one_unit : reachable (run wA histA1)
  /\ (exists w' ft x, exec (run wA histA1) (OSwap (c100_out BaseToQuote)) = Ok w'
        /\ w_log w' = w_log (run wA histA1) ++ swap_movements (c100_out BaseToQuote) 1123 1 ft x)
  /\ (exists w' ft x, exec (run wA histA1) (OSwap (c100_out QuoteToBase)) = Ok w'
        /\ w_log w' = w_log (run wA histA1) ++ swap_movements (c100_out QuoteToBase) 2 1 ft x).
Proof.
  split; [apply reachA|]. split.
  - eexists _, TQuote, 0. split; vm_compute; reflexivity.
  - eexists _, TQuote, 0. split; vm_compute; reflexivity.
Qed.

(** Without a minimum a trader can pay one unit and get none. *)
Definition c100_gift (least : Z) : swap_args :=
  mkSwapArgs 500 None QuoteToBase 0 1 least 1000 1700000000 plain_view.

Example C100_case_gift :
  (exists w' ft x, exec wA (OSwap (c100_gift 0)) = Ok w'
     /\ w_log w' = w_log wA ++ swap_movements (c100_gift 0) 1 0 ft x)
  /\ exec wA (OSwap (c100_gift 1)) = Err EExceededSlippage.
Proof.
  split; [|vm_compute; reflexivity]. eexists _, TQuote, 0. split; vm_compute; reflexivity.
Qed.

Print Assumptions C100_nothing_for_nothing.
Print Assumptions C100_named_amounts.
Print Assumptions C100_empty_trade.
Print Assumptions C100_no_gift.
