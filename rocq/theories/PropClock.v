(** * The calendar does not matter: C98. *)
From Coq Require Import ZArith QArith List Bool Lia ZifyBool PeanoNat.
From Verif Require Import Base MathModel CurveModel FeeModel ConfigModel PoolModel TxModel
  SystemModel Spec SpecHist Lib CurveProofs CurveLoops Potential CalcProofs ConfigProofs FeeProofs
  SwapProofs InvProofs InvOps InvReach Effects Frame Bounds Only PropSwap PropSafe PropFees PropPay
  PropIndep PropLayout Fixtures FixturesReach.
Import ListNotations.
Open Scope Z_scope.
#[local] Arguments Z.pow : simpl never.
#[local] Arguments Z.testbit : simpl never.
#[local] Arguments unless : simpl never.

(** ** Specification *)

Section Later.
Variables ds dt : Z.   (* how many slots and seconds later; negative for earlier *)

(** A time on record, moved; 0 stands for "never". *)
Definition moved_time (t : Z) : Z := if t =? 0 then 0 else t + dt.

(** The pool's starting point is a slot or a time, as its config says. *)
Definition point_delta (c : config) : Z :=
  match activation_of (c_activation_type c) with Ok ActSlot => ds | _ => dt end.

Definition later_tracker (v : tracker) : tracker :=
  mkTracker (moved_time (vt_last v)) (vt_price_ref v) (vt_va v) (vt_vref v).
Definition later_pool (c : config) (p : pool) : pool :=
  mkPool (later_tracker (p_tracker p)) (p_creator p) (p_base p) (p_quote p) (p_protocol_base p) (p_protocol_quote p)
    (p_partner_base p) (p_partner_quote p) (p_creator_base p) (p_creator_quote p) (p_price p)
    (p_activation p + point_delta c) (p_is_migrated p) (p_partner_surplus p) (p_protocol_surplus p)
    (p_creator_surplus p) (p_progress p) (p_leftover p) (p_mig_fee_status p) (p_m_protocol_base p)
    (p_m_protocol_quote p) (p_m_trading_base p) (p_m_trading_quote p) (moved_time (p_finish p)) (p_legacy_bits p)
    (p_creation_bits p) (p_has_swap p) (p_mig_fee_bps p) (p_mig_base_fee p) (p_mig_quote_fee p).
(** The vesting escrow starts when the curve was completed, the vesting of a position a given time after the migration. *)
Definition later_escrow (c : config) (e : escrow) : escrow :=
  to_create_vesting_escrow_params (c_vesting c) (moved_time (es_start e)).
Definition later_vesting (v : vesting_params) : vesting_params :=
  mkVestingParams (vp_cliff_point v + dt) (vp_per_period v) (vp_cliff_unlock v) (vp_frequency v) (vp_periods v).
Definition later_position (x : position) : position :=
  mkPosition (po_owner x) (po_total x) (po_perm x) (po_vested x) (option_map later_vesting (po_vesting x)) (po_price x).

(** The same pool with all times moved. All amounts, prices, flags, owners, and all token movements so far are the same. *)
Definition later (w : world) : world :=
  mkWorld (w_key w) (w_config w) (later_pool (w_config w) (w_pool w)) (w_bvault w) (w_qvault w) (w_lamports w)
    (w_supply w) (w_mint_auth w) (w_update_auth w) (w_meta w) (w_lp w)
    (option_map (fun x => (fst x, later_escrow (w_config w) (snd x))) (w_escrow w))
    (map later_position (w_positions w)) (w_admins w) (w_operators w) (w_log w).

(** The same instruction, executed that much later. *)
Definition later_op (o : op) : op :=
  match o with
  | OSwap a => OSwap (mkSwapArgs (sa_user a) (sa_referral a) (sa_dir a) (sa_mode a) (sa_amount0 a) (sa_amount1 a)
                        (sa_slot a + ds) (sa_now a + dt) (sa_view a))
  | OMigrateV2 x now => OMigrateV2 x (now + dt)
  | o => o
  end.

(** Clocks as they are: a slot, and seconds since 1970, after the first day of that year. *)
Definition fair_slot (s : Z) : Prop := 0 <= s <= 2 ^ 63 /\ 0 <= s + ds <= 2 ^ 63.
Definition fair_time (t : Z) : Prop := 86400 <= t <= 2 ^ 63 /\ 86400 <= t + dt <= 2 ^ 63.
Definition fair_clock (o : op) : Prop :=
  match o with
  | OSwap a => fair_slot (sa_slot a) /\ fair_time (sa_now a)
  | OMigrateV2 _ now => fair_time now
  | _ => True
  end.

(** ** One instruction *)
Definition mapr {A B} (g : A -> B) (x : res A) : res B := match x with Ok a => Ok (g a) | Err e => Err e end.

Lemma bind_map {A B A' B'} (g : A -> A') (h : B -> B') x x' f f' :
  x' = mapr g x -> (forall a, x = Ok a -> f' (g a) = mapr h (f a)) -> bind x' f' = mapr h (bind x f).
Proof. intros -> K. destruct x; simpl; auto. Qed.
Lemma bind_id {A B B'} (h : B -> B') (x x' : res A) f f' :
  x' = x -> (forall a, x = Ok a -> f' a = mapr h (f a)) -> bind x' f' = mapr h (bind x f).
Proof. intros -> K. destruct x; simpl; auto. Qed.

Ltac same := apply bind_id; [reflexivity|intros ? ?].

Definition on_pool1 (c : config) (r : pool * Z) : pool * Z := (later_pool c (fst r), snd r).
Definition on_pool2 (c : config) (r : pool * Z * Z) : pool * Z * Z := (later_pool c (fst (fst r)), snd (fst r), snd r).

Lemma pay_base_later w to a : pay_base (later w) to a = mapr later (pay_base w to a).
Proof. unfold pay_base. same. reflexivity. Qed.
Lemma pay_quote_later w to a : pay_quote (later w) to a = mapr later (pay_quote w to a).
Proof. unfold pay_quote. same. reflexivity. Qed.
Lemma recv_base_later w to a : recv_base (later w) to a = mapr later (recv_base w to a).
Proof. unfold recv_base. same. reflexivity. Qed.
Lemma recv_quote_later w to a : recv_quote (later w) to a = mapr later (recv_quote w to a).
Proof. unfold recv_quote. same. reflexivity. Qed.
Lemma pay_lamports_later w to a : pay_lamports (later w) to a = mapr later (pay_lamports w to a).
Proof. unfold pay_lamports. same. reflexivity. Qed.
Lemma pay_lp_later w to a : pay_lp (later w) to a = mapr later (pay_lp w to a).
Proof. unfold pay_lp. same. reflexivity. Qed.
Lemma burn_base_later w a : burn_base (later w) a = mapr later (burn_base w a).
Proof. unfold burn_base. repeat same. reflexivity. Qed.

Lemma claim_partner_later c p b q :
  claim_partner_trading_fee (later_pool c p) b q = mapr (on_pool2 c) (claim_partner_trading_fee p b q).
Proof. unfold claim_partner_trading_fee. same. same. reflexivity. Qed.
Lemma claim_creator_later c p b q :
  claim_creator_trading_fee (later_pool c p) b q = mapr (on_pool2 c) (claim_creator_trading_fee p b q).
Proof. unfold claim_creator_trading_fee. same. same. reflexivity. Qed.
Lemma claim_pbase_later c p a :
  claim_protocol_base_fee (later_pool c p) a = mapr (on_pool1 c) (claim_protocol_base_fee p a).
Proof.
  unfold claim_protocol_base_fee. cbv zeta.
  apply (bind_map (later_pool c)); [same; reflexivity|]. intros p1 _. same.
  apply (bind_map (later_pool c)); [same; reflexivity|]. intros p2 _. same. reflexivity.
Qed.
Lemma claim_pquote_later c p a :
  claim_protocol_quote_fee_and_surplus (later_pool c p) c a
  = mapr (on_pool1 c) (claim_protocol_quote_fee_and_surplus p c a).
Proof.
  unfold claim_protocol_quote_fee_and_surplus.
  apply (bind_map (on_pool1 c)).
  - unfold claim_protocol_quote_fee. cbv zeta.
    apply (bind_map (later_pool c)); [same; reflexivity|]. intros p1 _. same.
    apply (bind_map (later_pool c)); [same; reflexivity|]. intros p2 _. same. reflexivity.
  - intros [p1 am] _. simpl. unfold is_curve_complete. cbn [p_protocol_surplus p_quote later_pool].
    destruct (_ && _); [|reflexivity]. same. same. reflexivity.
Qed.

Lemma set_pool_later w c p : w_config w = c -> set_w_pool (later w) (later_pool c p) = later (set_w_pool w p).
Proof. intros <-. reflexivity. Qed.
Lemma pay_base_cfg w to a w' : pay_base w to a = Ok w' -> w_config w' = w_config w.
Proof. unfold pay_base. intros H. apply bind_ok in H. destruct H as (? & _ & H). apply Ok_inj in H. subst. reflexivity. Qed.
Lemma pay_quote_cfg w to a w' : pay_quote w to a = Ok w' -> w_config w' = w_config w.
Proof. unfold pay_quote. intros H. apply bind_ok in H. destruct H as (? & _ & H). apply Ok_inj in H. subst. reflexivity. Qed.

Lemma claim_partner_fee_later w s t b q : claim_partner_fee (later w) s t b q = mapr later (claim_partner_fee w s t b q).
Proof.
  unfold claim_partner_fee. same. apply (bind_map (on_pool2 (w_config w))); [apply claim_partner_later|].
  intros [[p x] y] _. unfold on_pool2. cbn [fst snd].
  apply (bind_map later); [exact (pay_base_later (set_w_pool w p) _ _)|]. intros. apply pay_quote_later.
Qed.
Lemma claim_creator_fee_later w s t b q : claim_creator_fee (later w) s t b q = mapr later (claim_creator_fee w s t b q).
Proof.
  unfold claim_creator_fee. same. apply (bind_map (on_pool2 (w_config w))); [apply claim_creator_later|].
  intros [[p x] y] _. unfold on_pool2. cbn [fst snd].
  apply (bind_map later); [exact (pay_base_later (set_w_pool w p) _ _)|]. intros. apply pay_quote_later.
Qed.
Lemma claim_protocol_fee_later w s b q : claim_protocol_fee (later w) s b q = mapr later (claim_protocol_fee w s b q).
Proof.
  unfold claim_protocol_fee. same. apply (bind_map (on_pool1 (w_config w))); [apply claim_pbase_later|].
  intros [p x] _. unfold on_pool1. cbn [fst snd].
  apply (bind_map later).
  { destruct (0 <? x); [exact (pay_base_later (set_w_pool w p) _ _)|reflexivity]. }
  intros w1 E.
  assert (C : w_config w1 = w_config w).
  { destruct (0 <? x); [apply pay_base_cfg in E; exact E|apply Ok_inj in E; subst; reflexivity]. }
  apply (bind_map (on_pool1 (w_config w))); [apply claim_pquote_later|].
  intros [p2 y] _. unfold on_pool1. cbn [fst snd]. rewrite (set_pool_later w1) by exact C.
  destruct (0 <? y); [apply pay_quote_later|reflexivity].
Qed.
Lemma zap_later w s a base al ok : zap_protocol_fee (later w) s a base al ok = mapr later (zap_protocol_fee w s a base al ok).
Proof.
  unfold zap_protocol_fee. same. same. apply (bind_map (on_pool1 (w_config w))).
  { destruct base; [apply claim_pbase_later|apply claim_pquote_later]. }
  intros [p x] _. unfold on_pool1. cbn [fst snd]. same. same.
  destruct base; [exact (pay_base_later (set_w_pool w p) _ _)|exact (pay_quote_later (set_w_pool w p) _ _)].
Qed.
Lemma partner_surplus_later w s t : withdraw_partner_surplus (later w) s t = mapr later (withdraw_partner_surplus w s t).
Proof.
  unfold withdraw_partner_surplus. same. cbv zeta. do 3 same.
  apply (bind_map later); [apply pay_quote_later|]. intros w1 E. apply pay_quote_cfg in E.
  cbn [mapr]. apply f_equal. exact (set_pool_later w1 _ (set_partner_surplus (w_pool w) 1) E).
Qed.
Lemma creator_surplus_later w s t : withdraw_creator_surplus (later w) s t = mapr later (withdraw_creator_surplus w s t).
Proof.
  unfold withdraw_creator_surplus. same. cbv zeta. do 3 same.
  apply (bind_map later); [apply pay_quote_later|]. intros w1 E. apply pay_quote_cfg in E.
  cbn [mapr]. apply f_equal. exact (set_pool_later w1 _ (set_creator_surplus (w_pool w) 1) E).
Qed.
Lemma migration_fee_later w s t f : withdraw_migration_fee (later w) s t f = mapr later (withdraw_migration_fee w s t f).
Proof.
  unfold withdraw_migration_fee. cbv zeta. same. apply bind_id; [reflexivity|]. intros [x y] _.
  destruct (f =? 0); [|destruct (f =? 1); [|reflexivity]].
  - same. same. exact (pay_quote_later (set_w_pool w (set_mig_fee_status (w_pool w)
      (bit_flip (p_mig_fee_status (w_pool w)) PARTNER_MIGRATION_FEE_MASK))) _ _).
  - same. same. exact (pay_quote_later (set_w_pool w (set_mig_fee_status (w_pool w)
      (bit_flip (p_mig_fee_status (w_pool w)) CREATOR_MIGRATION_FEE_MASK))) _ _).
Qed.
Lemma leftover_later w : withdraw_leftover (later w) = mapr later (withdraw_leftover w).
Proof.
  unfold withdraw_leftover. cbv zeta. do 6 same.
  apply (bind_map later); [apply pay_base_later|]. intros w1 E. apply pay_base_cfg in E.
  cbn [mapr]. apply f_equal. exact (set_pool_later w1 _ (set_leftover (w_pool w) 1) E).
Qed.
Lemma partner_creation_later w s t : claim_partner_creation_fee (later w) s t = mapr later (claim_partner_creation_fee w s t).
Proof.
  unfold claim_partner_creation_fee. same. cbv zeta. do 3 same.
  exact (pay_lamports_later (set_w_pool w (set_creation_bits (w_pool w)
      (bit_flip (p_creation_bits (w_pool w)) PARTNER_CREATION_FEE_MASK))) _ _).
Qed.
Lemma protocol_creation_later w s : claim_protocol_creation_fee (later w) s = mapr later (claim_protocol_creation_fee w s).
Proof.
  unfold claim_protocol_creation_fee. same. cbv zeta. apply (bind_map (on_pool1 (w_config w))).
  { change (p_creation_bits (w_pool (later w))) with (p_creation_bits (w_pool w)).
    destruct (bit_unset _ _); [same; reflexivity|reflexivity]. }
  intros [p x] _. unfold on_pool1 at 1. cbn [fst snd]. apply (bind_map (on_pool1 (w_config w))).
  { change (p_legacy_bits (later_pool (w_config w) p)) with (p_legacy_bits p).
    destruct (_ && _); [same; reflexivity|reflexivity]. }
  intros [p2 y] _. unfold on_pool1. cbn [fst snd].
  destruct (0 <? y); [exact (pay_lamports_later (set_w_pool w p2) _ _)|reflexivity].
Qed.
Lemma transfer_later w s n : transfer_creator (later w) s n = mapr later (transfer_creator w s n).
Proof. unfold transfer_creator. same. same. cbv zeta. same. reflexivity. Qed.
Lemma create_locker_later w : create_locker (later w) = mapr later (create_locker w).
Proof.
  unfold create_locker. cbv zeta. same. same.
  apply (bind_map later); [apply pay_base_later|]. intros w1 E. apply pay_base_cfg in E.
  cbn [mapr]. apply f_equal. unfold later, set_w_escrow, set_w_pool. cbn. rewrite E. reflexivity.
Qed.
Lemma metadata_later w : create_v1_metadata (later w) = mapr later (create_v1_metadata w).
Proof. unfold create_v1_metadata. same. same. reflexivity. Qed.
Lemma burn_rest_later w fb : burn_rest (later w) fb = mapr later (burn_rest w fb).
Proof. unfold burn_rest. do 4 same. destruct (0 <? _); [apply burn_base_later|reflexivity]. Qed.
Lemma burn_rest_cfg w fb w' : burn_rest w fb = Ok w' -> w_config w' = w_config w.
Proof.
  unfold burn_rest, burn_base. intros H. do 4 (apply bind_ok in H; destruct H as (? & _ & H)).
  destruct (0 <? _); [|apply Ok_inj in H; subst; reflexivity].
  repeat (apply bind_ok in H; destruct H as (? & _ & H)). apply Ok_inj in H. subst. reflexivity.
Qed.
Lemma migrate_v1_later w ok lp : migrate_v1 (later w) ok lp = mapr later (migrate_v1 w ok lp).
Proof.
  unfold migrate_v1. same. same. same. apply bind_id; [reflexivity|]. intros [[[fb fq] eb] eq] _. cbv zeta.
  apply (bind_map later).
  { exact (pay_base_later (set_w_pool w (set_mig_quote_fee (set_mig_base_fee (w_pool w) fb) fq)) _ _). }
  intros w1 E1. apply pay_base_cfg in E1.
  apply (bind_map later); [apply pay_quote_later|]. intros w2 E2. apply pay_quote_cfg in E2.
  apply (bind_map later); [exact (burn_rest_later (set_w_pool w2 (set_is_migrated (w_pool w2) 1)) fb)|].
  intros w4 E4. same. apply bind_id; [reflexivity|]. intros [[[pl pu] cl] cu] _. reflexivity.
Qed.
Lemma lock_lp_later w o : lock_lp (later w) o = mapr later (lock_lp w o).
Proof.
  unfold lock_lp. same. same. apply bind_id; [reflexivity|]. intros [m x] _.
  exact (pay_lp_later (set_w_meta w (Some m)) _ _).
Qed.
Lemma claim_lp_later w o : claim_lp (later w) o = mapr later (claim_lp w o).
Proof.
  unfold claim_lp. same. same. apply bind_id; [reflexivity|]. intros [m x] _.
  exact (pay_lp_later (set_w_meta w (Some m)) _ _).
Qed.

(** *** Migration to DAMM v2 *)
Definition small_cliff (v : liq_vesting) : Prop := 0 <= vi_cliff v <= 2 ^ 32.
Lemma vesting_later v tot now : small_cliff v -> fair_time now ->
  damm_v2_vesting_parameters v tot (now + dt) = mapr later_vesting (damm_v2_vesting_parameters v tot now).
Proof.
  intros S F. unfold damm_v2_vesting_parameters. do 3 same.
  destruct (if a1 =? 0 then _ else _) as [[pe fr] cl] eqn:X.
  assert (C : 0 <= cl <= 2 ^ 32).
  { unfold small_cliff in S. destruct (a1 =? 0); apply pair_inj in X; destruct X as [_ <-]; lia. }
  same. same. unfold sadd.
  destruct F as [F1 F2]. replace (now + dt + cl <=? U64_MAX) with true by (unfold U64_MAX; lia).
  replace (now + cl <=? U64_MAX) with true by (unfold U64_MAX; lia).
  cbn. unfold later_vesting. cbn. do 2 f_equal. lia.
Qed.
Lemma lock_params_later i now : small_cliff (li_vesting i) -> fair_time now ->
  lock_params i (now + dt) = mapr (option_map later_vesting) (lock_params i now).
Proof.
  intros S F. unfold lock_params. same. destruct (0 <? a); [|reflexivity]. destruct (0 <? li_vested i); [|reflexivity].
  apply (bind_map later_vesting); [apply vesting_later; assumption|]. reflexivity.
Qed.
Lemma dist_vesting c liq a b : get_liquidity_distribution c liq = Ok (a, b) ->
  li_vesting a = c_partner_vesting c /\ li_vesting b = c_creator_vesting c.
Proof.
  unfold get_liquidity_distribution. intros H. do 10 (apply bind_ok in H; destruct H as (? & _ & H)).
  apply Ok_inj in H. apply pair_inj in H. destruct H as [<- <-]. split; reflexivity.
Qed.
Lemma adjust_vesting i adj j : adjust_liquidity i adj = Ok j -> li_vesting j = li_vesting i.
Proof.
  unfold adjust_liquidity. cbv zeta. intros H. apply bind_ok in H. destruct H as (? & _ & H).
  destruct (_ =? 0); [apply Ok_inj in H; subst; reflexivity|].
  do 3 (apply bind_ok in H; destruct H as (? & _ & H)). apply Ok_inj in H. subst. reflexivity.
Qed.
Lemma migrate_v2_later w x now : small_cliff (c_partner_vesting (w_config w)) ->
  small_cliff (c_creator_vesting (w_config w)) -> fair_time now ->
  migrate_v2 (later w) x (now + dt) = mapr later (migrate_v2 w x now).
Proof.
  intros S1 S2 F. unfold migrate_v2. same. same. cbv zeta. same.
  apply bind_id; [reflexivity|]. intros [[[fb fq] eb] eq] _.
  apply bind_id; [reflexivity|]. intros [[price liq] dead] _.
  apply bind_id; [reflexivity|]. intros [pa cr] D.
  change (w_config (later w)) with (w_config w).
  apply dist_vesting in D. destruct D as [D1 D2].
  apply bind_id; [reflexivity|]. intros tp _. apply bind_id; [reflexivity|]. intros tc _.
  change (p_creator (set_mig_quote_fee (set_mig_base_fee (w_pool (later w)) fb) fq)) with (p_creator (w_pool w)).
  change (p_creator (set_mig_quote_fee (set_mig_base_fee (w_pool w) fb) fq)) with (p_creator (w_pool w)).
  destruct (if tc <? tp then _ else _) as [[[fi se] o1] o2] eqn:X.
  assert (V : small_cliff (li_vesting fi) /\ small_cliff (li_vesting se)).
  { destruct (tc <? tp); inversion X; subst; rewrite D1, D2; split; assumption. }
  destruct V as [V1 V2]. clear X.
  apply bind_id; [reflexivity|]. intros t1 _. apply bind_id; [reflexivity|]. intros liq1 _.
  apply (bind_map (option_map later_vesting)); [apply lock_params_later; assumption|]. intros vp1 _.
  same. apply (bind_map later).
  { exact (pay_base_later (set_w_pool w (set_mig_quote_fee (set_mig_base_fee (w_pool w) fb) fq)) _ _). }
  intros w1 E1. apply (bind_map later); [apply pay_quote_later|]. intros w2 E2.
  apply bind_id; [reflexivity|]. intros lb _. apply bind_id; [reflexivity|]. intros lq _.
  apply bind_id; [reflexivity|]. intros liq2 _.
  apply (bind_map later).
  { destruct (0 <? liq2); [|reflexivity].
    apply bind_id; [reflexivity|]. intros se' A. apply adjust_vesting in A. same.
    apply (bind_map (option_map later_vesting)); [apply lock_params_later; [rewrite A|]; assumption|]. intros vp2 _.
    same. apply (bind_map later); [apply pay_base_later|]. intros w3 _.
    apply (bind_map later); [apply pay_quote_later|]. intros w4 _. reflexivity. }
  intros w3 _. apply (bind_map later); [exact (burn_rest_later (set_w_pool w3 (set_is_migrated (w_pool w3) 1)) fb)|].
  intros w6 _. reflexivity.
Qed.

(** *** Swaps *)
Definition fair_point (c : config) (x : Z) : Prop := 0 <= x <= 2 ^ 63 /\ 0 <= x + point_delta c <= 2 ^ 63.
Record fair_terms (c : config) : Prop := {
  ft_second : 0 <= bf_second (pf_base (c_fees c)) <= U64_MAX;
  ft_filter : df_filter (pf_dyn (c_fees c)) <= 65535;
  ft_decay : df_decay (pf_dyn (c_fees c)) <= 65535;
  ft_partner : small_cliff (c_partner_vesting c);
  ft_creator : small_cliff (c_creator_vesting c)
}.
Lemma fair_point_of c s t x : fair_slot s -> fair_time t -> current_point c s t = Ok x -> fair_point c x.
Proof.
  unfold fair_slot, fair_time, fair_point, current_point, point_delta. intros S T H.
  destruct (activation_of _) as [[]|]; simpl in H; [| |discriminate]; apply Ok_inj in H; subst x; lia.
Qed.
Lemma point_later c s t : current_point c (s + ds) (t + dt) = mapr (fun x => x + point_delta c) (current_point c s t).
Proof. unfold current_point, point_delta. destruct (activation_of _) as [[]|]; reflexivity. Qed.
Lemma ssub_shift a b k : ssub (a + k) (b + k) = ssub a b.
Proof.
  unfold ssub. replace (b + k <=? a + k) with (b <=? a) by lia. replace (a + k - (b + k)) with (a - b) by lia.
  reflexivity.
Qed.
Lemma applied_later c act cur d : fair_terms c -> fair_point c act ->
  rl_applied (pf_base (c_fees c)) (cur + point_delta c) (act + point_delta c) d
  = rl_applied (pf_base (c_fees c)) cur act d.
Proof.
  intros [S _ _ _ _] [A B]. unfold rl_applied. destruct (rl_is_zero _); [reflexivity|]. destruct d; [reflexivity|].
  unfold sadd. unfold U64_MAX in S.
  replace (act + point_delta c + bf_second (pf_base (c_fees c)) <=? U128_MAX) with true by (unfold U128_MAX; lia).
  replace (act + bf_second (pf_base (c_fees c)) <=? U128_MAX) with true by (unfold U128_MAX; lia).
  cbn [bind]. do 2 f_equal. lia.
Qed.
Lemma num_included_later c p cur a d e : fair_terms c -> fair_point c (p_activation p) ->
  num_included c (later_pool c p) (cur + point_delta c) a d e = num_included c p cur a d e.
Proof.
  intros T A. unfold num_included, total_num_included, base_num_included, sched_numerator.
  cbn [p_activation later_pool p_tracker]. rewrite ssub_shift, applied_later by assumption. reflexivity.
Qed.
Lemma num_excluded_later c p cur a d e : fair_terms c -> fair_point c (p_activation p) ->
  num_excluded c (later_pool c p) (cur + point_delta c) a d e = num_excluded c p cur a d e.
Proof.
  intros T A. unfold num_excluded, total_num_excluded, base_num_excluded, sched_numerator.
  cbn [p_activation later_pool p_tracker]. rewrite ssub_shift, applied_later by assumption. reflexivity.
Qed.
Lemma bind_ext {A B} (x : res A) (f g : A -> res B) : (forall a, f a = g a) -> bind x f = bind x g.
Proof. intros E. destruct x; simpl; auto. Qed.
Lemma process_later c p m a0 a1 fm d cur e : fair_terms c -> fair_point c (p_activation p) ->
  process_swap c (later_pool c p) m a0 a1 fm d (cur + point_delta c) e = process_swap c p m a0 a1 fm d cur e.
Proof.
  intros T A. unfold process_swap.
  assert (E0 : swap_exact_in c (later_pool c p) a0 fm d (cur + point_delta c) e = swap_exact_in c p a0 fm d cur e).
  { unfold swap_exact_in. rewrite num_included_later by assumption. reflexivity. }
  assert (E1 : swap_partial c (later_pool c p) a0 fm d (cur + point_delta c) e = swap_partial c p a0 fm d cur e).
  { unfold swap_partial. rewrite num_included_later by assumption.
    apply bind_ext. intros num. apply bind_ext. intros f.
    change (p_price (later_pool c p)) with (p_price p). apply bind_ext. intros r.
    apply (f_equal (fun x => bind x _)). destruct (negb _); [|reflexivity]. apply bind_ext. intros ac.
    destruct (fm_on_input fm); [|reflexivity]. rewrite num_excluded_later by assumption. reflexivity. }
  assert (E2 : swap_exact_out c (later_pool c p) a0 fm d (cur + point_delta c) e = swap_exact_out c p a0 fm d cur e).
  { unfold swap_exact_out. rewrite num_excluded_later by assumption.
    apply bind_ext. intros [[[g tr] pr] rf].
    change (p_price (later_pool c p)) with (p_price p). apply bind_ext. intros r. apply bind_ext. intros _.
    rewrite num_excluded_later by assumption. reflexivity. }
  rewrite E0, E1, E2. reflexivity.
Qed.

Lemma references_later c v price now : fair_terms c -> fair_time now ->
  update_references (pf_dyn (c_fees c)) (later_tracker v) price (now + dt)
  = mapr later_tracker (update_references (pf_dyn (c_fees c)) v price now).
Proof.
  intros [_ F D _ _] [N1 N2]. unfold update_references. cbv zeta. unfold later_tracker at 1 2. cbn [vt_last].
  unfold moved_time. destruct (vt_last v =? 0) eqn:L.
  - (* no trade has moved the price yet: both clocks are far beyond the decay period *)
    replace (df_filter (pf_dyn (c_fees c)) <=? Z.max 0 (now + dt - 0)) with true by lia.
    replace (df_filter (pf_dyn (c_fees c)) <=? Z.max 0 (now - vt_last v)) with true by lia.
    replace (Z.max 0 (now + dt - 0) <? df_decay (pf_dyn (c_fees c))) with false by lia.
    replace (Z.max 0 (now - vt_last v) <? df_decay (pf_dyn (c_fees c))) with false by lia.
    cbn. unfold later_tracker, moved_time. cbn. rewrite L. reflexivity.
  - replace (now + dt - (vt_last v + dt)) with (now - vt_last v) by lia.
    destruct (_ <=? _); [|reflexivity]. destruct (_ <? _); [|]; unfold later_tracker, moved_time; cbn; rewrite ?L.
    + same. cbn. rewrite L. reflexivity.
    + reflexivity.
Qed.
Lemma pre_later c p now : fair_terms c -> fair_time now ->
  update_pre_swap c (later_pool c p) (now + dt) = mapr (later_pool c) (update_pre_swap c p now).
Proof.
  intros T N. unfold update_pre_swap. destruct (dyn_enabled _); [|reflexivity].
  apply (bind_map later_tracker); [apply references_later; assumption|]. reflexivity.
Qed.
Lemma post_later c p old now : fair_time now ->
  update_post_swap c (later_pool c p) old (now + dt) = mapr (later_pool c) (update_post_swap c p old now).
Proof.
  intros [N _]. unfold update_post_swap. destruct (dyn_enabled _); [|reflexivity].
  apply (bind_map later_tracker).
  { unfold update_volatility_accumulator. do 3 same. reflexivity. }
  intros v _. same. destruct (0 <? a); [|reflexivity]. cbn [mapr]. apply f_equal.
  assert (M : moved_time now = now + dt) by (unfold moved_time; replace (now =? 0) with false by lia; reflexivity).
  unfold set_tracker, later_pool, later_tracker. cbn. rewrite M. reflexivity.
Qed.
Lemma apply_later c p r fm d now : fair_time now ->
  apply_swap_result c (later_pool c p) r fm d (now + dt) = mapr (later_pool c) (apply_swap_result c p r fm d now).
Proof.
  intros N. unfold apply_swap_result. cbv zeta. apply (bind_map (later_pool c)).
  { unfold apply_fees. apply bind_id; [reflexivity|]. intros [x y] _. destruct (fm_on_base fm); do 5 same; reflexivity. }
  intros p1 _. same. apply (bind_map (later_pool c)).
  { unfold apply_reserves. destruct d; do 2 same; reflexivity. }
  intros p2 _. apply (bind_map (later_pool c)); [exact (post_later c p2 (p_price p) now N)|]. reflexivity.
Qed.

Definition later_args (a : swap_args) : swap_args :=
  mkSwapArgs (sa_user a) (sa_referral a) (sa_dir a) (sa_mode a) (sa_amount0 a) (sa_amount1 a)
    (sa_slot a + ds) (sa_now a + dt) (sa_view a).
Lemma transfers_later w a fm r : swap_transfers (later w) (later_args a) fm r = mapr later (swap_transfers w a fm r).
Proof.
  unfold swap_transfers. cbn [sa_dir later_args sa_user sa_referral]. apply (bind_map later).
  { destruct (sa_dir a).
    - apply (bind_map later); [apply recv_base_later|]. intros. apply pay_quote_later.
    - apply (bind_map later); [apply recv_quote_later|]. intros. apply pay_base_later. }
  intros w1 _. destruct (sa_referral a); [|reflexivity].
  destruct (fm_on_base fm); [apply pay_base_later|apply pay_quote_later].
Qed.
Lemma finish_later w now : fair_time now -> finish_curve (later w) (now + dt) = mapr later (finish_curve w now).
Proof.
  intros [N _]. unfold finish_curve. cbv zeta.
  change (is_curve_complete (w_pool (later w)) (c_threshold (w_config (later w))))
    with (is_curve_complete (w_pool w) (c_threshold (w_config w))).
  destruct (is_curve_complete _ _); [|reflexivity]. do 5 same.
  assert (M : moved_time now = now + dt) by (unfold moved_time; replace (now =? 0) with false by lia; reflexivity).
  cbn [mapr]. apply f_equal. unfold later, set_w_pool, later_pool, set_finish, set_progress. cbn. rewrite M. reflexivity.
Qed.

Lemma swap_later w a : fair_terms (w_config w) -> fair_point (w_config w) (p_activation (w_pool w)) ->
  fair_time (sa_now a) ->
  swap_full (later w) (later_args a) = mapr (fun r => (later (fst r), snd r)) (swap_full w a).
Proof.
  intros T A N. unfold swap_full. cbv zeta. change (w_config (later w)) with (w_config w). same.
  apply (bind_map (fun x => x + point_delta (w_config w))); [apply point_later|]. intros cur _.
  apply bind_id.
  { unfold rate_limit_check. cbv zeta. destruct (_ =? 2); [|reflexivity].
    cbn [w_pool later p_activation later_pool sa_dir later_args]. rewrite applied_later by assumption. reflexivity. }
  intros _ _. same.
  apply (bind_map (later_pool (w_config w))); [apply pre_later; assumption|]. intros p1 E1.
  assert (A1 : fair_point (w_config w) (p_activation p1)).
  { apply pre_swap_tracker in E1. destruct E1 as (vt & -> & _). exact A. }
  apply bind_id; [reflexivity|]. intros fm _.
  apply bind_id; [exact (process_later (w_config w) p1 _ _ _ _ _ _ _ T A1)|]. intros r _.
  apply (bind_map (later_pool (w_config w))); [exact (apply_later (w_config w) p1 r fm _ _ N)|]. intros p2 _.
  apply (bind_map later); [exact (transfers_later (set_w_pool w p2) a fm r)|]. intros w1 _.
  apply (bind_map later); [exact (finish_later w1 _ N)|]. reflexivity.
Qed.

Lemma args_later o : fair_clock o -> args_ok (later_op o) = args_ok o.
Proof.
  destruct o; try reflexivity; cbn [fair_clock later_op args_ok]; unfold fair_slot, fair_time.
  - intros [S N]. cbn [sa_amount0 sa_amount1 sa_slot sa_now].
    replace (u64b (sa_slot a + ds)) with true by (unfold u64b, U64_MAX; lia).
    replace (u64b (sa_now a + dt)) with true by (unfold u64b, U64_MAX; lia).
    replace (u64b (sa_slot a)) with true by (unfold u64b, U64_MAX; lia).
    replace (u64b (sa_now a)) with true by (unfold u64b, U64_MAX; lia). reflexivity.
  - intros N. replace (u64b (now + dt)) with true by (unfold u64b, U64_MAX; lia).
    replace (u64b now) with true by (unfold u64b, U64_MAX; lia). reflexivity.
Qed.

Lemma exec_later w o : fair_terms (w_config w) -> fair_point (w_config w) (p_activation (w_pool w)) ->
  fair_clock o -> exec (later w) (later_op o) = mapr later (exec w o).
Proof.
  intros T A F. unfold exec. apply bind_id; [rewrite args_later by exact F; reflexivity|]. intros _ _.
  destruct o; cbn [later_op].
  - unfold do_swap. apply (bind_map (fun r => (later (fst r), snd r))); [apply swap_later; auto; apply F|]. reflexivity.
  - apply claim_partner_fee_later.
  - apply claim_creator_fee_later.
  - apply claim_protocol_fee_later.
  - apply zap_later.
  - apply partner_surplus_later.
  - apply creator_surplus_later.
  - apply migration_fee_later.
  - apply leftover_later.
  - apply partner_creation_later.
  - apply protocol_creation_later.
  - apply transfer_later.
  - apply create_locker_later.
  - apply metadata_later.
  - apply migrate_v1_later.
  - apply migrate_v2_later; [apply T|apply T|exact F].
  - apply lock_lp_later.
  - apply claim_lp_later.
  - unfold create_operator. repeat same. reflexivity.
  - unfold close_operator. repeat same. reflexivity.
  - apply recv_base_later.
  - apply recv_quote_later.
  - reflexivity.
  - same. same. reflexivity.
  - same. reflexivity.
Qed.
End Later.

(** ** Whole histories *)

(** What the caller of each instruction sees: success, or the error. *)
Definition outcome {A} (r : res A) : option err := match r with Ok _ => None | Err e => Some e end.
Fixpoint outcomes (w : world) (ops : list op) : list (option err) :=
  match ops with [] => [] | o :: r => outcome (exec w o) :: outcomes (step w o) r end.

Lemma created_terms c : created c -> fair_terms c.
Proof.
  intros H. apply created_inv in H.
  destruct H as (q & sup & spl & now & mig & sb & ba & fl & pre & post & qm & fc & lr & qa & bps & T & _ & B).
  destruct B as [V M MX S S64 AM BP SP MODE COMP SUP BPS BMIN EQ].
  pose proof (vesting_info_typed _ (pt_pv _ T)) as (P1 & P2 & P3 & P4 & P5 & P6).
  pose proof (vesting_info_typed _ (pt_cv _ T)) as (C1 & C2 & C3 & C4 & C5 & C6).
  pose proof (pt_base _ T) as (D1 & D2 & D3 & D4 & D5).
  assert (DF : dyn_typed (pf_dyn (to_pool_fees_config q))).
  { pose proof (pt_dyn _ T) as TD. unfold to_pool_fees_config. cbn [pf_dyn].
    destruct (q_dynamic_fee q) as [d|]; unfold dyn_typed in *; simpl;
      unfold u8ok, u16ok, u32ok, u128ok, U8_MAX, U16_MAX, U32_MAX, U128_MAX in *; lia. }
  destruct DF as (E1 & E2 & E3 & E4 & E5 & E6 & E7 & E8).
  subst c. unfold u32ok, u16ok, u64ok, U32_MAX, U16_MAX in *.
  constructor; cbn [c_fees c_partner_vesting c_creator_vesting build]; unfold small_cliff; try lia.
  unfold to_pool_fees_config. cbn [pf_base]. lia.
Qed.

Lemma step_later ds dt w o : fair_terms (w_config w) -> fair_point ds dt (w_config w) (p_activation (w_pool w)) ->
  fair_clock ds dt o ->
  outcome (exec (later ds dt w) (later_op ds dt o)) = outcome (exec w o)
  /\ step (later ds dt w) (later_op ds dt o) = later ds dt (step w o).
Proof.
  intros T A F. unfold step. rewrite (exec_later ds dt w o T A F). destruct (exec w o); split; reflexivity.
Qed.
Lemma run_later ds dt ops : forall w, Inv w -> fair_terms (w_config w) ->
  fair_point ds dt (w_config w) (p_activation (w_pool w)) -> Forall (fair_clock ds dt) ops ->
  outcomes (later ds dt w) (map (later_op ds dt) ops) = outcomes w ops
  /\ run (later ds dt w) (map (later_op ds dt) ops) = later ds dt (run w ops).
Proof.
  induction ops as [|o ops IH]; intros w I T A F; [split; reflexivity|].
  inversion F as [|? ? F1 F2]; subst. destruct (step_later ds dt w o T A F1) as [E1 E2].
  assert (K : w_config (step w o) = w_config w /\ p_activation (w_pool (step w o)) = p_activation (w_pool w)).
  { unfold step. destruct (exec w o) eqn:E; [|split; reflexivity].
    destruct (exec_frame _ _ _ I E) as (FR & _). split; [apply FR|apply (pm_act _ _ (fr_pool _ _ FR))]. }
  destruct K as [K1 K2].
  destruct (IH (step w o)) as [J1 J2]; [apply inv_step; exact I|rewrite K1; exact T|rewrite K1, K2; exact A|exact F2|].
  cbn [map outcomes]. rewrite E1, E2, J1. split; [reflexivity|].
  unfold run in *. cbn [fold_left]. rewrite E2. exact J2.
Qed.

(** ** C98 *)

(** Creation at another date gives the same pool with its times moved, or the same error. *)
Theorem C98_creation ds dt c key creator payer ty slot time admins operators :
  initialize_pool c key creator payer ty (slot + ds) (time + dt) admins operators
  = match initialize_pool c key creator payer ty slot time admins operators with
    | Ok w => Ok (later ds dt w) | Err e => Err e end.
Proof.
  unfold initialize_pool. change (match ?x with Ok w => Ok (later ds dt w) | Err e => Err e end) with (mapr (later ds dt) x).
  do 7 (apply bind_id; [reflexivity|]; intros ? ?).
  apply (bind_map (fun x => x + point_delta ds dt c)); [apply point_later|]. reflexivity.
Qed.

(** A pool created [ds] slots and [dt] seconds later, whose instructions come as much later: every instruction
    succeeds or fails alike, all token movements, prices, reserves, fees and flags are the same, and the
    recorded times differ by just the delay. *)
Theorem C98_any_date ds dt c key creator payer ty slot time admins operators w0 ops :
  created c -> fair_slot ds slot -> fair_time dt time -> Forall (fair_clock ds dt) ops ->
  initialize_pool c key creator payer ty slot time admins operators = Ok w0 ->
  exists w1,
    initialize_pool c key creator payer ty (slot + ds) (time + dt) admins operators = Ok w1
    /\ outcomes w1 (map (later_op ds dt) ops) = outcomes w0 ops
    /\ run w1 (map (later_op ds dt) ops) = later ds dt (run w0 ops).
Proof.
  intros C S T F H. exists (later ds dt w0). split; [rewrite C98_creation, H; reflexivity|].
  assert (IN : initial w0).
  { exists c, key, creator, payer, ty, slot, time, admins, operators. unfold fair_slot, fair_time in S, T.
    repeat split; auto; unfold U64_MAX; lia. }
  pose proof (initial_inv _ IN) as I.
  assert (X : w_config w0 = c /\ current_point c slot time = Ok (p_activation (w_pool w0))).
  { unfold initialize_pool in H. do 7 (apply bind_ok in H; destruct H as (? & _ & H)).
    apply bind_ok in H. destruct H as (act & A & H). apply Ok_inj in H. subst w0. split; [reflexivity|exact A]. }
  destruct X as [X1 X2].
  apply run_later; [exact I|rewrite X1; apply created_terms; exact C|rewrite X1|exact F].
  eapply fair_point_of; eauto.
Qed.

(** In particular: the same payments in the same order, to the token. *)
Theorem C98_same_payments ds dt c key creator payer ty slot time admins operators w0 w1 ops :
  created c -> fair_slot ds slot -> fair_time dt time -> Forall (fair_clock ds dt) ops ->
  initialize_pool c key creator payer ty slot time admins operators = Ok w0 ->
  initialize_pool c key creator payer ty (slot + ds) (time + dt) admins operators = Ok w1 ->
  let w := run w0 ops in
  let w' := run w1 (map (later_op ds dt) ops) in
  w_log w' = w_log w /\ w_bvault w' = w_bvault w /\ w_qvault w' = w_qvault w /\ w_lamports w' = w_lamports w
  /\ p_price (w_pool w') = p_price (w_pool w) /\ p_base (w_pool w') = p_base (w_pool w)
  /\ p_quote (w_pool w') = p_quote (w_pool w) /\ p_progress (w_pool w') = p_progress (w_pool w)
  /\ p_finish (w_pool w') = (if p_finish (w_pool w) =? 0 then 0 else p_finish (w_pool w) + dt).
Proof.
  intros C S T F H0 H1. cbv zeta.
  destruct (C98_any_date ds dt c key creator payer ty slot time admins operators w0 ops C S T F H0) as (x & X1 & _ & X2).
  rewrite H1 in X1. apply Ok_inj in X1. subst x. rewrite X2. repeat split; reflexivity.
Qed.

(** What a trader is quoted and charged: the same amounts and fees. *)
Theorem C98_same_trade ds dt w0 ops a :
  initial w0 -> fair_point ds dt (w_config w0) (p_activation (w_pool w0)) -> fair_time dt (sa_now a) ->
  outcome (swap_full (later ds dt (run w0 ops)) (later_args ds dt a)) = outcome (swap_full (run w0 ops) a)
  /\ forall w' r, swap_full (run w0 ops) a = Ok (w', r) ->
     exists w'', swap_full (later ds dt (run w0 ops)) (later_args ds dt a) = Ok (w'', r).
Proof.
  intros IN A N. pose proof (initial_inv _ IN) as I. pose proof (run_frame ops w0 I) as FR.
  assert (C : created (w_config w0)).
  { destruct IN as (c & key & creator & payer & ty & slot & time & admins & operators & C & _ & _ & H).
    unfold initialize_pool in H. do 8 (apply bind_ok in H; destruct H as (? & _ & H)).
    apply Ok_inj in H. subst w0. exact C. }
  rewrite swap_later; [|rewrite (fr_config _ _ FR); apply created_terms; exact C
    |rewrite (fr_config _ _ FR), (pm_act _ _ (fr_pool _ _ FR)); exact A|exact N].
  split; [destruct (swap_full _ _); reflexivity|]. intros w' r E. rewrite E. simpl. eauto.
Qed.

(** The config too: the same parameters are accepted at every date, or refused with the same error. *)
Lemma vq_later dt q now : lvparams_typed q -> fair_time dt now -> vq_validate q (now + dt) = vq_validate q now.
Proof.
  intros T F. unfold vq_validate. destruct (vq_is_zero q); [reflexivity|]. apply bind_ext. intros v.
  pose proof (vesting_info_typed _ T) as (_ & _ & _ & _ & _ & C).
  rewrite (vesting_later dt) by (auto; unfold small_cliff; unfold u32ok, U32_MAX in C; lia).
  destruct (damm_v2_vesting_parameters _ _ _) as [vp|]; [|reflexivity]. cbn [mapr bind].
  unfold validate_vesting_parameters, vesting_total_lock, later_vesting.
  cbn [vp_cliff_point vp_per_period vp_cliff_unlock vp_frequency vp_periods]. rewrite ssub_shift.
  replace (now + dt <=? vp_cliff_point vp + dt) with (now <=? vp_cliff_point vp) by lia.
  replace (vp_cliff_point vp + dt =? now + dt) with (vp_cliff_point vp =? now) by lia. reflexivity.
Qed.
Theorem C98_config dt q supported spl now mint claimer receiver : params_typed q -> fair_time dt now ->
  create_config q supported spl (now + dt) mint claimer receiver = create_config q supported spl now mint claimer receiver.
Proof.
  intros T F. unfold create_config.
  assert (E : params_validate q supported spl (now + dt) = params_validate q supported spl now).
  { unfold params_validate. rewrite (vq_later dt _ _ (pt_pv _ T) F), (vq_later dt _ _ (pt_cv _ T) F). reflexivity. }
  rewrite E. reflexivity.
Qed.

(** ** Non-vacuity: the whole life of pool A, about a year later *)
Definition yearA : list op := map (later_op 78840000 31536000) (histA1 ++ histA2 ++ histA3).
Example C98_case :
  Forall (fair_clock 78840000 31536000) (histA1 ++ histA2 ++ histA3)
  /\ fair_slot 78840000 1000 /\ fair_time 31536000 1700000000
  /\ all_ok wA (histA1 ++ histA2 ++ histA3) = true
  /\ p_finish (w_pool (run wA (histA1 ++ histA2 ++ histA3))) = 1700000900
  /\ all_ok (later 78840000 31536000 wA) yearA = true
  /\ p_finish (w_pool (run (later 78840000 31536000 wA) yearA)) = 1731536900
  /\ p_activation (w_pool (later 78840000 31536000 wA)) <> p_activation (w_pool wA).
Proof.
  split.
  { unfold histA1, histA2, histA3, swp. cbn [app].
    repeat (apply Forall_cons; [cbn; unfold fair_slot, fair_time; cbn; try exact Logic.I; lia|]). apply Forall_nil. }
  unfold fair_slot, fair_time. split; [lia|]. split; [lia|]. repeat split; vm_compute; congruence.
Qed.
(** A delay of the trades alone does matter: the launch fee of pool A falls with time. *)
Example C98_case_delay :
  w_log (run wA [swp 500 None QuoteToBase 0 2000000000 0 1700000000 plain_view])
  <> w_log (run wA (map (later_op 1000 500) [swp 500 None QuoteToBase 0 2000000000 0 1700000000 plain_view])).
Proof. vm_compute. congruence. Qed.

Example C98_case_config :
  params_typed fx_paramsA /\ fair_time 31536000 1700000000
  /\ create_config fx_paramsA true true 1731536000 11 22 33 = Ok cfgA.
Proof. split; [apply typedA|]. split; [unfold fair_time; lia|vm_compute; reflexivity]. Qed.

Print Assumptions C98_creation.
Print Assumptions C98_config.
Print Assumptions C98_any_date.
Print Assumptions C98_same_payments.
Print Assumptions C98_same_trade.
