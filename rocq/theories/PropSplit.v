(** * C56 for any number of parts. *)
From Coq Require Import ZArith QArith List Bool Lia ZifyBool.
From Verif Require Import Base MathModel CurveModel FeeModel ConfigModel PoolModel TxModel
  SystemModel Fixtures Spec Lib CurveProofs CurveLoops Potential CalcProofs ConfigProofs FeeProofs
  SwapProofs InvProofs InvOps InvReach FixturesReach PropSwap Effects Frame Bounds PropSafe PropVol
  TxTree PropTx Live PropSell PropBuy SdkModel PropSdk Steps Walks PropTrade.
Import ListNotations.
Open Scope Z_scope.
#[local] Arguments Z.pow : simpl never.
#[local] Arguments Z.testbit : simpl never.

(** ** Specification *)

(** The trades [parts] are executed one after the other from [w] to [w'] and receive [gots]. *)
Fixpoint one_by_one (w : world) (parts : list swap_args) (gots : list Z) (w' : world) : Prop :=
  match parts, gots with
  | [], [] => w' = w
  | a :: parts', got :: gots' =>
      exists w1 paid ft referral, exec w (OSwap a) = Ok w1
        /\ w_log w1 = w_log w ++ swap_movements a paid got ft referral
        /\ one_by_one w1 parts' gots' w'
  | _, _ => False
  end.

Definition sum (l : list Z) : Z := fold_right Z.add 0 l.

(** ** Proof *)
Definition net (n x : Z) : Z := x - cdiv (x * n) FEE_DENOMINATOR.

Lemma parts_walk c act cur d n : forall parts w gots w',
  reachable w -> w_config w = c -> p_activation (w_pool w) = act ->
  df_initialized (pf_dyn (c_fees c)) = 0 -> ~ limiter_active c act cur d ->
  num_included c (w_pool w) cur 0 d false = Ok n -> 0 <= n <= MAX_FEE_NUMERATOR ->
  Forall (fun a => sa_dir a = d /\ point_of c (sa_slot a) (sa_now a) = cur /\ sa_mode a = 0) parts ->
  (forall a r, parts = a :: r -> ~ bundle_entitled w a) ->
  one_by_one w parts gots w' ->
  exists x g q l, 0 <= x
    /\ x <= (if on_input w d then net n (sum (map sa_amount0 parts)) else sum (map sa_amount0 parts))
    /\ sum gots <= (if on_input w d then g else net n g)
    /\ takes (walk_stop c d) (walk_segs c d) (walk_pos d (p_price (w_pool w))) x q l g
    /\ walk_pos d (p_price (w_pool w')) <= q.
Proof.
  induction parts as [|a parts IH]; intros w gots w' R CE AE DY LM N NB FA BE H.
  - destruct gots as [|g gots]; [|destruct H]. cbn in H. subst w'.
    pose proof (reachable_inv _ R) as I. pose proof (iv_created _ I) as CR. rewrite CE in CR.
    pose proof (created_cfg_ok _ CR) as K. pose proof (ok_curve _ K) as CK.
    pose proof (iv_price _ I) as P. rewrite CE in P.
    pose proof (walk_ok _ d CK) as WK. pose proof (walk_low_pos _ d _ CK P) as WL.
    exists 0, 0, (walk_pos d (p_price (w_pool w))), 0. cbn [map sum fold_right].
    assert (N0 : net n 0 = 0) by reflexivity. rewrite N0.
    split; [lia|]. split; [destruct (on_input w d); lia|]. split; [destruct (on_input w d); lia|].
    split; [|lia]. eapply takes_zero; eauto.
  - destruct gots as [|got gots]; [destruct H|]. cbn [one_by_one] in H.
    destruct H as (w1 & paid & ft & rf & EX & LG & H).
    apply Forall_cons_iff in FA. destruct FA as ((DA & PA & MA) & FA).
    pose proof (reachable_exec _ _ _ R EX) as R1. pose proof (reachable_inv _ R) as I.
    destruct (exec_frame _ _ _ I EX) as (FR & _).
    pose proof (fr_config _ _ FR) as FC. pose proof (pm_act _ _ (fr_pool _ _ FR)) as FT.
    destruct (swap_mono _ _ _ I EX) as (_ & _ & _ & HS & _).
    destruct (exact_in_view _ _ _ R MA EX) as (na & xa & grA & la & ga' & fta' & ra' & NA & NBa & XA0 & GA0 & XA & GA & WA & LGA).
    rewrite LG in LGA. apply movements_inj in LGA. destruct LGA as (_ & ->).
    assert (EA : entitled w a = false).
    { apply not_true_iff_false. intros X. apply (BE a parts eq_refl). apply eligible_iff, X. }
    assert (PA' : at_point w a = cur) by (unfold at_point; rewrite CE; exact PA).
    rewrite EA, PA', DA, CE in NA.
    assert (LM' : ~ limiter_active c (p_activation (w_pool w)) cur d) by (rewrite AE; exact LM).
    assert (na = n).
    { rewrite <- (excluded_same _ _ _ 0 (sa_amount0 a) _ _ LM') in NA.
      rewrite <- (excluded_same _ _ _ 0 0 _ _ LM') in N. congruence. }
    subst na.
    destruct (IH w1 gots w') as (x & g & q & l & X0 & X1 & X2 & X3 & X4); auto.
    { rewrite FC. exact CE. } { rewrite FT. exact AE. }
    { rewrite (plain_rate c (w_pool w)); [exact N|exact DY|exact FT]. }
    { intros b r _ (_ & Z0 & _). lia. }
    rewrite DA in WA, XA, GA. unfold walk in WA. rewrite CE in WA.
    assert (OB : on_input w1 d = on_input w d) by (unfold on_input; rewrite FC; reflexivity). rewrite OB in X1, X2.
    destruct (swap_setting _ _ _ R EX) as (_ & _ & CK & P & _). rewrite CE in CK, P.
    pose proof (walk_ok _ d CK) as WK. pose proof (walk_low_pos _ d _ CK P) as WL.
    assert (S0 : 0 <= xa + x) by lia.
    destruct (takes_total (walk_stop c d) _ _ _ (xa + x) WK WL S0) as (q3 & l3 & g3 & T).
    destruct (takes_split _ _ _ _ _ _ _ _ _ _ _ _ _ _ _ WK WL XA0 X0 WA X3 T) as (Q1 & G1 & _).
    exists (xa + x), g3, q3, l3. cbn [map sum fold_right]. fold (sum (map sa_amount0 parts)). fold (sum gots).
    split; [exact S0|]. fold (net n (sa_amount0 a)) in XA. fold (net n grA) in GA.
    split; [|split; [|split; [exact T|lia]]].
    + pose proof (net_add (sa_amount0 a) (sum (map sa_amount0 parts)) n) as NA2.
      fold (net n (sa_amount0 a)) in NA2. fold (net n (sum (map sa_amount0 parts))) in NA2.
      fold (net n (sa_amount0 a + sum (map sa_amount0 parts))) in NA2.
      destruct (on_input w d); lia.
    + pose proof (net_add grA g n) as NA2. pose proof (net_mono (grA + g) g3 n NB ltac:(lia)) as NM.
      fold (net n grA) in NA2. fold (net n g) in NA2. fold (net n (grA + g)) in NA2, NM. fold (net n g3) in NM.
      destruct (on_input w d); lia.
Qed.

(** ** C56 *)

(** Without a dynamic fee and with a rate that does not depend on the amount, a trader who splits
    an exact-input trade into any number of parts (executed at the same point, one after the
    other) receives no more in total than for the whole, and the price moves no further. *)
Theorem C56_no_gain_from_many_parts : forall w parts gots w2 t w3 paid got ft referral,
  reachable w -> df_initialized (pf_dyn (c_fees (w_config w))) = 0 ->
  ~ limiter_active (w_config w) (p_activation (w_pool w)) (at_point w t) (sa_dir t) ->
  Forall (fun a => sa_dir a = sa_dir t /\ at_point w a = at_point w t /\ sa_mode a = 0
                   /\ ~ bundle_entitled w a) parts ->
  ~ bundle_entitled w t -> sa_mode t = 0 -> sa_amount0 t = sum (map sa_amount0 parts) ->
  one_by_one w parts gots w2 ->
  exec w (OSwap t) = Ok w3 -> w_log w3 = w_log w ++ swap_movements t paid got ft referral ->
  sum gots <= got /\ as_far (sa_dir t) (p_price (w_pool w2)) (p_price (w_pool w3)).
Proof.
  intros w parts gots w2 t w3 pt gt ftt rt R DY LM FA BT MT SUM H ET LT.
  destruct (exact_in_view _ _ _ R MT ET) as (n & xt & grT & lt & gt' & ftt' & rt' & NT & NBt & XT0 & GT0 & XT & GT & WT & LGT).
  rewrite LT in LGT. apply movements_inj in LGT. destruct LGT as (_ & ->).
  assert (ET' : entitled w t = false) by (apply not_true_iff_false; intros X; apply BT, eligible_iff, X).
  rewrite ET' in NT.
  assert (N0 : num_included (w_config w) (w_pool w) (at_point w t) 0 (sa_dir t) false = Ok n).
  { rewrite <- (excluded_same _ _ _ 0 0 _ _ LM), (excluded_same _ _ _ 0 (sa_amount0 t) _ _ LM). exact NT. }
  destruct (parts_walk (w_config w) (p_activation (w_pool w)) (at_point w t) (sa_dir t) n parts w gots w2
              R eq_refl eq_refl DY LM N0 NBt) as (x & g & q & l & X0 & X1 & X2 & X3 & X4); auto.
  { eapply Forall_impl; [|exact FA]. intros a (A1 & A2 & A3 & _). auto. }
  { intros a r ->. apply Forall_inv in FA. tauto. }
  destruct (swap_setting _ _ _ R ET) as (_ & _ & CK & P & _).
  pose proof (walk_ok _ (sa_dir t) CK) as WK. pose proof (walk_low_pos _ (sa_dir t) _ CK P) as WL.
  rewrite <- SUM in X1. fold (net n (sa_amount0 t)) in XT. fold (net n grT) in GT.
  assert (XX : x <= xt) by (destruct (on_input w (sa_dir t)); lia).
  unfold walk in WT.
  destruct (takes_mono _ _ _ _ _ _ _ _ _ _ _ _ WK WL X0 XX X3 WT) as (Q2 & G2 & _).
  split; [|apply as_far_pos; lia].
  pose proof (net_mono g grT n NBt G2) as NM. fold (net n g) in NM. fold (net n grT) in NM.
  destruct (on_input w (sa_dir t)); lia.
Qed.

Definition part (x : Z) : swap_args := req QuoteToBase 0 x 0 1700000000.

Example C56_case_many : exists w parts gots w2 t w3 paid got ft referral,
  reachable w /\ df_initialized (pf_dyn (c_fees (w_config w))) = 0
  /\ ~ limiter_active (w_config w) (p_activation (w_pool w)) (at_point w t) (sa_dir t)
  /\ length parts = 3%nat
  /\ Forall (fun a => sa_dir a = sa_dir t /\ at_point w a = at_point w t /\ sa_mode a = 0
                      /\ ~ bundle_entitled w a) parts
  /\ ~ bundle_entitled w t /\ sa_mode t = 0 /\ sa_amount0 t = sum (map sa_amount0 parts)
  /\ one_by_one w parts gots w2
  /\ exec w (OSwap t) = Ok w3 /\ w_log w3 = w_log w ++ swap_movements t paid got ft referral
  /\ Forall (fun g => 0 < g) gots /\ sum gots < got.
Proof.
  exists (run wF []), [part 70000000001; part 30000000013; part 20000000004].
  evar (g1 : Z). evar (g2 : Z). evar (g3 : Z).
  exists [g1; g2; g3]. eexists. exists (part 120000000018). eexists.
  exists 120000000018. eexists. exists TQuote, 0.
  split; [apply reachF|]. split; [reflexivity|].
  split; [intros (M & _); vm_compute in M; discriminate|]. split; [reflexivity|].
  split; [repeat constructor; apply req_not_entitled|].
  split; [apply req_not_entitled|]. split; [reflexivity|]. split; [vm_compute; reflexivity|].
  split.
  { cbn [one_by_one].
    eexists _, 70000000001, TQuote, 0. do 2 (split; [vm_compute; reflexivity|]).
    eexists _, 30000000013, TQuote, 0. do 2 (split; [vm_compute; reflexivity|]).
    eexists _, 20000000004, TQuote, 0. do 2 (split; [vm_compute; reflexivity|]). reflexivity. }
  do 2 (split; [vm_compute; reflexivity|]).
  subst g1 g2 g3. split; [repeat constructor|]. vm_compute. reflexivity.
Qed.

Print Assumptions C56_no_gain_from_many_parts.
