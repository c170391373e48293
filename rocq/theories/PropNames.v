(** * No backdoor, names carry no weight: C99. *)
From Coq Require Import ZArith QArith List Bool Lia ZifyBool PeanoNat.
From Verif Require Import Base MathModel CurveModel FeeModel ConfigModel PoolModel TxModel
  SystemModel Spec SpecHist Lib PropClock Fixtures FixturesReach.
Import ListNotations.
Open Scope Z_scope.
#[local] Arguments Z.pow : simpl never.
#[local] Arguments Z.testbit : simpl never.

(** ** Specification *)

Definition one_to_one (f : Z -> Z) : Prop := forall a b, f a = f b -> a = b.

Section Rename.
Variable f : Z -> Z.   (* a new name for everybody *)

Definition rename_party (x : party) : party :=
  match x with PKey k => PKey (f k) | PLock k => PLock (f k) | x => x end.
Definition rename_transfer (t : transfer) : transfer :=
  mkTransfer (t_token t) (rename_party (t_from t)) (rename_party (t_to t)) (t_amount t).
(** Of the config, the partner and the receiver of the leftover; all other terms stay. *)
Definition rename_config (c : config) : config :=
  mkConfig (c_quote_mint c) (f (c_fee_claimer c)) (f (c_leftover_receiver c)) (c_fees c) (c_partner_vesting c)
    (c_creator_vesting c) (c_collect_fee_mode c) (c_migration_option c) (c_activation_type c) (c_token_decimal c)
    (c_token_type c) (c_partner_perm_pct c) (c_partner_liq_pct c) (c_creator_perm_pct c) (c_creator_liq_pct c)
    (c_migration_fee_option c) (c_fixed_supply_flag c) (c_creator_trading_fee_pct c) (c_token_update_authority c)
    (c_migration_fee_pct c) (c_creator_migration_fee_pct c) (c_swap_base_amount c) (c_threshold c)
    (c_base_threshold c) (c_mig_price c) (c_vesting c) (c_pre_supply c) (c_post_supply c)
    (c_migrated_collect_mode c) (c_migrated_dynamic_fee c) (c_migrated_pool_fee_bps c)
    (c_migrated_base_fee_mode c) (c_first_swap_min_fee c) (c_compounding_fee_bps c) (c_pool_creation_fee c)
    (c_mc_number_of_period c) (c_mc_price_step c) (c_mc_expiration c) (c_mc_reduction c) (c_start c) (c_curve c).
(** Of the pool, its creator. *)
Definition rename_pool (p : pool) : pool := set_creator p (f (p_creator p)).
Definition rename_meta (m : v1meta) : v1meta :=
  mkMeta (f (m_partner m)) (m_partner_locked m) (m_partner_liq m) (m_creator_locked m) (m_creator_liq m)
    (m_creator_lock_done m) (m_partner_lock_done m) (m_creator_claim_done m) (m_partner_claim_done m).
Definition rename_position (x : position) : position :=
  mkPosition (f (po_owner x)) (po_total x) (po_perm x) (po_vested x) (po_vesting x) (po_price x).
Definition rename_operator (o : Z * Z) : Z * Z := (f (fst o), snd o).
(** The same pool, with everybody renamed. All amounts, prices, times and flags are the same. *)
Definition rename (w : world) : world :=
  mkWorld (w_key w) (rename_config (w_config w)) (rename_pool (w_pool w)) (w_bvault w) (w_qvault w) (w_lamports w)
    (w_supply w) (option_map f (w_mint_auth w)) (option_map f (w_update_auth w)) (option_map rename_meta (w_meta w))
    (w_lp w) (option_map (fun x => (f (fst (fst x)), snd (fst x), snd x)) (w_escrow w))
    (map rename_position (w_positions w)) (map f (w_admins w)) (map rename_operator (w_operators w))
    (map rename_transfer (w_log w)).

Definition rename_swap (a : swap_args) : swap_args :=
  mkSwapArgs (f (sa_user a)) (option_map f (sa_referral a)) (sa_dir a) (sa_mode a) (sa_amount0 a) (sa_amount1 a)
    (sa_slot a) (sa_now a) (sa_view a).
(** The same instruction, by and for the renamed. *)
Definition rename_op (o : op) : op :=
  match o with
  | OSwap a => OSwap (rename_swap a)
  | OClaimPartner s t b q => OClaimPartner (f s) (f t) b q
  | OClaimCreator s t b q => OClaimCreator (f s) (f t) b q
  | OClaimProtocol s b q => OClaimProtocol (f s) b q
  | OZap s a b al ok => OZap (f s) a b al ok
  | OPartnerSurplus s t => OPartnerSurplus (f s) (f t)
  | OCreatorSurplus s t => OCreatorSurplus (f s) (f t)
  | OMigrationFee s t fl => OMigrationFee (f s) (f t) fl
  | OPartnerCreationFee s t => OPartnerCreationFee (f s) (f t)
  | OProtocolCreationFee s => OProtocolCreationFee (f s)
  | OTransferCreator s n => OTransferCreator (f s) (f n)
  | OLockLp k => OLockLp (f k)
  | OClaimLp k => OClaimLp (f k)
  | OCreateOperator s a p => OCreateOperator (f s) (f a) p
  | OCloseOperator s a => OCloseOperator (f s) (f a)
  | ODonateBase k a => ODonateBase (f k) a
  | ODonateQuote k a => ODonateQuote (f k) a
  | ODonateSol k a => ODonateSol (f k) a
  | OMint s k a => OMint (f s) (f k) a
  | OBurn s a => OBurn (f s) a
  | o => o
  end.

(** ** One instruction *)
Hypothesis inj : one_to_one f.

Ltac same := apply bind_id; [reflexivity|intros ? _].

Lemma feq a b : (f a =? f b) = (a =? b).
Proof.
  destruct (a =? b) eqn:E; [apply Z.eqb_eq in E; subst; apply Z.eqb_refl|].
  apply Z.eqb_neq. intros H. apply inj in H. lia.
Qed.
Lemma log_rn w t : rename (log w t) = log (rename w) (rename_transfer t).
Proof. unfold log, rename, set_w_log. cbn. rewrite map_app. reflexivity. Qed.

Lemma pay_base_rn w to a : pay_base (rename w) (rename_party to) a = mapr rename (pay_base w to a).
Proof. unfold pay_base. same. cbn [mapr]. rewrite log_rn. reflexivity. Qed.
Lemma pay_quote_rn w to a : pay_quote (rename w) (rename_party to) a = mapr rename (pay_quote w to a).
Proof. unfold pay_quote. same. cbn [mapr]. rewrite log_rn. reflexivity. Qed.
Lemma recv_base_rn w to a : recv_base (rename w) (rename_party to) a = mapr rename (recv_base w to a).
Proof. unfold recv_base. same. cbn [mapr]. rewrite log_rn. reflexivity. Qed.
Lemma recv_quote_rn w to a : recv_quote (rename w) (rename_party to) a = mapr rename (recv_quote w to a).
Proof. unfold recv_quote. same. cbn [mapr]. rewrite log_rn. reflexivity. Qed.
Lemma pay_lamports_rn w to a : pay_lamports (rename w) (rename_party to) a = mapr rename (pay_lamports w to a).
Proof. unfold pay_lamports. same. cbn [mapr]. rewrite log_rn. reflexivity. Qed.
Lemma pay_lp_rn w to a : pay_lp (rename w) (rename_party to) a = mapr rename (pay_lp w to a).
Proof. unfold pay_lp. same. cbn [mapr]. rewrite log_rn. reflexivity. Qed.
Lemma burn_base_rn w a : burn_base (rename w) a = mapr rename (burn_base w a).
Proof. unfold burn_base. same. cbn [mapr]. rewrite log_rn. reflexivity. Qed.

Lemma partner_rn w s : check_partner (rename w) (f s) = check_partner w s.
Proof. unfold check_partner. cbn. rewrite feq. reflexivity. Qed.
Lemma creator_rn w s : check_creator (rename w) (f s) = check_creator w s.
Proof. unfold check_creator. cbn. rewrite feq. reflexivity. Qed.
Lemma admin_rn w s : check_admin (rename w) (f s) = check_admin w s.
Proof.
  unfold check_admin. cbn. f_equal. induction (w_admins w) as [|x l IH]; [reflexivity|]. cbn. rewrite feq, IH. reflexivity.
Qed.
Lemma find_rn l k : find_operator (map rename_operator l) (f k) = find_operator l k.
Proof. induction l as [|[a p] l IH]; [reflexivity|]. cbn. rewrite feq, IH. reflexivity. Qed.
Lemma operator_rn w s b : check_operator (rename w) (f s) b = check_operator w s b.
Proof. unfold check_operator. cbn [w_operators rename]. rewrite find_rn. reflexivity. Qed.

Definition rn1 (r : pool * Z) : pool * Z := (rename_pool (fst r), snd r).
Definition rn2 (r : pool * Z * Z) : pool * Z * Z := (rename_pool (fst (fst r)), snd (fst r), snd r).
Lemma claim_partner_rn p b q :
  claim_partner_trading_fee (rename_pool p) b q = mapr rn2 (claim_partner_trading_fee p b q).
Proof. unfold claim_partner_trading_fee. same. same. reflexivity. Qed.
Lemma claim_creator_rn p b q :
  claim_creator_trading_fee (rename_pool p) b q = mapr rn2 (claim_creator_trading_fee p b q).
Proof. unfold claim_creator_trading_fee. same. same. reflexivity. Qed.
Lemma claim_pbase_rn p a : claim_protocol_base_fee (rename_pool p) a = mapr rn1 (claim_protocol_base_fee p a).
Proof.
  unfold claim_protocol_base_fee. cbv zeta.
  apply (bind_map rename_pool); [same; reflexivity|]. intros p1 _. same.
  apply (bind_map rename_pool); [same; reflexivity|]. intros p2 _. same. reflexivity.
Qed.
Lemma claim_pquote_rn c p a :
  claim_protocol_quote_fee_and_surplus (rename_pool p) (rename_config c) a
  = mapr rn1 (claim_protocol_quote_fee_and_surplus p c a).
Proof.
  unfold claim_protocol_quote_fee_and_surplus.
  apply (bind_map rn1).
  - unfold claim_protocol_quote_fee. cbv zeta.
    apply (bind_map rename_pool); [same; reflexivity|]. intros p1 _. same.
    apply (bind_map rename_pool); [same; reflexivity|]. intros p2 _. same. reflexivity.
  - intros [p1 am] _. unfold rn1 at 1. cbn [fst snd]. unfold is_curve_complete.
    cbn [p_protocol_surplus p_quote rename_pool set_creator c_threshold rename_config].
    destruct (_ && _); [|reflexivity]. same. same. reflexivity.
Qed.

Lemma o_claim_partner w s t b q : claim_partner_fee (rename w) (f s) (f t) b q = mapr rename (claim_partner_fee w s t b q).
Proof.
  unfold claim_partner_fee. rewrite partner_rn. same. apply (bind_map rn2); [apply claim_partner_rn|].
  intros [[p x] y] _. unfold rn2. cbn [fst snd].
  apply (bind_map rename); [exact (pay_base_rn (set_w_pool w p) (PKey t) x)|]. intros w1 _. exact (pay_quote_rn w1 (PKey t) y).
Qed.
Lemma o_claim_creator w s t b q : claim_creator_fee (rename w) (f s) (f t) b q = mapr rename (claim_creator_fee w s t b q).
Proof.
  unfold claim_creator_fee. rewrite creator_rn. same. apply (bind_map rn2); [apply claim_creator_rn|].
  intros [[p x] y] _. unfold rn2. cbn [fst snd].
  apply (bind_map rename); [exact (pay_base_rn (set_w_pool w p) (PKey t) x)|]. intros w1 _. exact (pay_quote_rn w1 (PKey t) y).
Qed.
Lemma o_claim_protocol w s b q : claim_protocol_fee (rename w) (f s) b q = mapr rename (claim_protocol_fee w s b q).
Proof.
  unfold claim_protocol_fee. rewrite operator_rn. same. apply (bind_map rn1); [apply claim_pbase_rn|].
  intros [p x] _. unfold rn1. cbn [fst snd]. apply (bind_map rename).
  { destruct (0 <? x); [exact (pay_base_rn (set_w_pool w p) PTreasury x)|reflexivity]. }
  intros w1 _. apply (bind_map rn1); [apply claim_pquote_rn|]. intros [p2 y] _. unfold rn1. cbn [fst snd].
  destruct (0 <? y); [exact (pay_quote_rn (set_w_pool w1 p2) PTreasury y)|reflexivity].
Qed.
Lemma o_zap w s a base al ok : zap_protocol_fee (rename w) (f s) a base al ok = mapr rename (zap_protocol_fee w s a base al ok).
Proof.
  unfold zap_protocol_fee. rewrite operator_rn. same. same. apply (bind_map rn1).
  { destruct base; [apply claim_pbase_rn|apply claim_pquote_rn]. }
  intros [p x] _. unfold rn1. cbn [fst snd]. same. same.
  destruct base; [exact (pay_base_rn (set_w_pool w p) (PKey s) x)|exact (pay_quote_rn (set_w_pool w p) (PKey s) x)].
Qed.
Lemma o_partner_surplus w s t : withdraw_partner_surplus (rename w) (f s) (f t) = mapr rename (withdraw_partner_surplus w s t).
Proof.
  unfold withdraw_partner_surplus. rewrite partner_rn. same. cbv zeta. do 3 same.
  apply (bind_map rename); [exact (pay_quote_rn w (PKey t) _)|]. reflexivity.
Qed.
Lemma o_creator_surplus w s t : withdraw_creator_surplus (rename w) (f s) (f t) = mapr rename (withdraw_creator_surplus w s t).
Proof.
  unfold withdraw_creator_surplus. rewrite creator_rn. same. cbv zeta. do 3 same.
  apply (bind_map rename); [exact (pay_quote_rn w (PKey t) _)|]. reflexivity.
Qed.
Lemma o_migration_fee w s t fl : withdraw_migration_fee (rename w) (f s) (f t) fl = mapr rename (withdraw_migration_fee w s t fl).
Proof.
  unfold withdraw_migration_fee. cbv zeta. same. apply bind_id; [reflexivity|]. intros [x y] _.
  change (c_fee_claimer (w_config (rename w))) with (f (c_fee_claimer (w_config w))).
  change (p_creator (w_pool (rename w))) with (f (p_creator (w_pool w))). rewrite !feq.
  destruct (fl =? 0); [|destruct (fl =? 1); [|reflexivity]].
  - same. same. exact (pay_quote_rn (set_w_pool w (set_mig_fee_status (w_pool w)
      (bit_flip (p_mig_fee_status (w_pool w)) PARTNER_MIGRATION_FEE_MASK))) (PKey t) x).
  - same. same. exact (pay_quote_rn (set_w_pool w (set_mig_fee_status (w_pool w)
      (bit_flip (p_mig_fee_status (w_pool w)) CREATOR_MIGRATION_FEE_MASK))) (PKey t) y).
Qed.
Lemma o_leftover w : withdraw_leftover (rename w) = mapr rename (withdraw_leftover w).
Proof.
  unfold withdraw_leftover. cbv zeta. do 6 same.
  apply (bind_map rename); [exact (pay_base_rn w (PKey (c_leftover_receiver (w_config w))) _)|]. reflexivity.
Qed.
Lemma o_partner_creation w s t : claim_partner_creation_fee (rename w) (f s) (f t) = mapr rename (claim_partner_creation_fee w s t).
Proof.
  unfold claim_partner_creation_fee. rewrite partner_rn. same. cbv zeta. do 3 same.
  exact (pay_lamports_rn (set_w_pool w (set_creation_bits (w_pool w)
      (bit_flip (p_creation_bits (w_pool w)) PARTNER_CREATION_FEE_MASK))) (PKey t) _).
Qed.
Lemma o_protocol_creation w s : claim_protocol_creation_fee (rename w) (f s) = mapr rename (claim_protocol_creation_fee w s).
Proof.
  unfold claim_protocol_creation_fee. rewrite operator_rn. same. cbv zeta. apply (bind_map rn1).
  { change (p_creation_bits (w_pool (rename w))) with (p_creation_bits (w_pool w)).
    destruct (bit_unset _ _); [same; reflexivity|reflexivity]. }
  intros [p x] _. unfold rn1 at 1. cbn [fst snd]. apply (bind_map rn1).
  { change (p_legacy_bits (rename_pool p)) with (p_legacy_bits p).
    destruct (_ && _); [same; reflexivity|reflexivity]. }
  intros [p2 y] _. unfold rn1. cbn [fst snd].
  destruct (0 <? y); [exact (pay_lamports_rn (set_w_pool w p2) PTreasury y)|reflexivity].
Qed.
Lemma o_transfer w s n : transfer_creator (rename w) (f s) (f n) = mapr rename (transfer_creator w s n).
Proof.
  unfold transfer_creator. rewrite creator_rn, feq. same. same. cbv zeta. apply bind_id.
  { change (p_progress (w_pool (rename w))) with (p_progress (w_pool w)).
    change (c_migration_option (w_config (rename w))) with (c_migration_option (w_config w)).
    change (w_meta (rename w)) with (option_map rename_meta (w_meta w)). destruct (w_meta w); reflexivity. }
  intros _ _. reflexivity.
Qed.
Lemma o_locker w : create_locker (rename w) = mapr rename (create_locker w).
Proof.
  unfold create_locker. cbv zeta. same. same. apply (bind_map rename); [exact (pay_base_rn w PEscrow _)|]. reflexivity.
Qed.
Lemma o_metadata w : create_v1_metadata (rename w) = mapr rename (create_v1_metadata w).
Proof.
  unfold create_v1_metadata. same. change (w_meta (rename w)) with (option_map rename_meta (w_meta w)).
  apply bind_id; [destruct (w_meta w); reflexivity|]. intros _ _. reflexivity.
Qed.
Lemma burn_rest_rn w fb : burn_rest (rename w) fb = mapr rename (burn_rest w fb).
Proof. unfold burn_rest. do 4 same. destruct (0 <? _); [apply burn_base_rn|reflexivity]. Qed.
Lemma o_v1 w ok lp : migrate_v1 (rename w) ok lp = mapr rename (migrate_v1 w ok lp).
Proof.
  unfold migrate_v1. same. same. change (w_meta (rename w)) with (option_map rename_meta (w_meta w)).
  apply (bind_map rename_meta); [destruct (w_meta w); reflexivity|]. intros m _.
  apply bind_id; [reflexivity|]. intros [[[fb fq] eb] eq] _. cbv zeta. apply (bind_map rename).
  { exact (pay_base_rn (set_w_pool w (set_mig_quote_fee (set_mig_base_fee (w_pool w) fb) fq)) PDamm eb). }
  intros w1 _. apply (bind_map rename); [exact (pay_quote_rn w1 PDamm eq)|]. intros w2 _.
  apply (bind_map rename); [exact (burn_rest_rn (set_w_pool w2 (set_is_migrated (w_pool w2) 1)) fb)|].
  intros w4 _. same. apply bind_id; [reflexivity|]. intros [[[pl pu] cl] cu] _. reflexivity.
Qed.
Lemma o_v2 w x now : migrate_v2 (rename w) x now = mapr rename (migrate_v2 w x now).
Proof.
  unfold migrate_v2. same. same. cbv zeta. same.
  apply bind_id; [reflexivity|]. intros [[[fb fq] eb] eq] _.
  apply bind_id; [reflexivity|]. intros [[price liq] dead] _.
  apply bind_id; [reflexivity|]. intros [pa cr] _.
  apply bind_id; [reflexivity|]. intros tp _. apply bind_id; [reflexivity|]. intros tc _.
  change (c_fee_claimer (w_config (rename w))) with (f (c_fee_claimer (w_config w))).
  change (p_creator (set_mig_quote_fee (set_mig_base_fee (w_pool (rename w)) fb) fq)) with (f (p_creator (w_pool w))).
  change (p_creator (set_mig_quote_fee (set_mig_base_fee (w_pool w) fb) fq)) with (p_creator (w_pool w)).
  assert (X : exists fi se o1 o2,
    (if tc <? tp then (pa, cr, c_fee_claimer (w_config w), p_creator (w_pool w))
     else (cr, pa, p_creator (w_pool w), c_fee_claimer (w_config w))) = (fi, se, o1, o2)
    /\ (if tc <? tp then (pa, cr, f (c_fee_claimer (w_config w)), f (p_creator (w_pool w)))
        else (cr, pa, f (p_creator (w_pool w)), f (c_fee_claimer (w_config w)))) = (fi, se, f o1, f o2)).
  { destruct (tc <? tp); do 4 eexists; split; reflexivity. }
  destruct X as (fi & se & o1 & o2 & X1 & X2). rewrite X1, X2.
  apply bind_id; [reflexivity|]. intros t1 _. apply bind_id; [reflexivity|]. intros liq1 _.
  apply bind_id; [reflexivity|]. intros vp1 _. same. apply (bind_map rename).
  { exact (pay_base_rn (set_w_pool w (set_mig_quote_fee (set_mig_base_fee (w_pool w) fb) fq)) PDamm _). }
  intros w1 _. apply (bind_map rename); [exact (pay_quote_rn w1 PDamm _)|]. intros w2 _.
  apply bind_id; [reflexivity|]. intros lb _. apply bind_id; [reflexivity|]. intros lq _.
  apply bind_id; [reflexivity|]. intros liq2 _.
  apply (bind_map rename).
  { destruct (0 <? liq2); [|reflexivity].
    apply bind_id; [reflexivity|]. intros se' _. same. apply bind_id; [reflexivity|]. intros vp2 _.
    same. apply (bind_map rename); [exact (pay_base_rn w2 PDamm _)|]. intros w3 _.
    apply (bind_map rename); [exact (pay_quote_rn w3 PDamm _)|]. intros w4 _. reflexivity. }
  intros w3 _. apply (bind_map rename); [exact (burn_rest_rn (set_w_pool w3 (set_is_migrated (w_pool w3) 1)) fb)|].
  intros w6 _. reflexivity.
Qed.
Definition rnm (r : v1meta * Z) : v1meta * Z := (rename_meta (fst r), snd r).
Lemma o_lock w k : lock_lp (rename w) (f k) = mapr rename (lock_lp w k).
Proof.
  unfold lock_lp. same. change (w_meta (rename w)) with (option_map rename_meta (w_meta w)).
  apply (bind_map rename_meta); [destruct (w_meta w); reflexivity|]. intros m _.
  change (m_partner (rename_meta m)) with (f (m_partner m)).
  change (p_creator (w_pool (rename w))) with (f (p_creator (w_pool w))). rewrite !feq.
  apply (bind_map rnm).
  { destruct (k =? m_partner m), (k =? p_creator (w_pool w)); try reflexivity.
    - unfold lock_as_self. do 3 same. reflexivity.
    - unfold lock_as_partner. do 2 same. reflexivity.
    - unfold lock_as_creator. do 2 same. reflexivity. }
  intros [m' x] _. exact (pay_lp_rn (set_w_meta w (Some m')) (PLock k) x).
Qed.
Lemma o_claim w k : claim_lp (rename w) (f k) = mapr rename (claim_lp w k).
Proof.
  unfold claim_lp. same. change (w_meta (rename w)) with (option_map rename_meta (w_meta w)).
  apply (bind_map rename_meta); [destruct (w_meta w); reflexivity|]. intros m _.
  change (m_partner (rename_meta m)) with (f (m_partner m)).
  change (p_creator (w_pool (rename w))) with (f (p_creator (w_pool w))). rewrite !feq.
  apply (bind_map rnm).
  { destruct (k =? m_partner m), (k =? p_creator (w_pool w)); try reflexivity.
    - unfold claim_as_self. do 3 same. reflexivity.
    - unfold claim_as_partner. do 2 same. reflexivity.
    - unfold claim_as_creator. do 2 same. reflexivity. }
  intros [m' x] _. exact (pay_lp_rn (set_w_meta w (Some m')) (PKey k) x).
Qed.
Lemma o_create_operator w s a p : create_operator (rename w) (f s) (f a) p = mapr rename (create_operator w s a p).
Proof.
  unfold create_operator. rewrite admin_rn. same. cbn [w_operators rename]. rewrite find_rn. same. same. reflexivity.
Qed.
Lemma o_close_operator w s a : close_operator (rename w) (f s) (f a) = mapr rename (close_operator w s a).
Proof.
  unfold close_operator. rewrite admin_rn. same. cbn [w_operators rename]. rewrite find_rn. same. cbn [mapr].
  assert (E : filter (fun o => negb (fst o =? f a)) (map rename_operator (w_operators w))
              = map rename_operator (filter (fun o => negb (fst o =? a)) (w_operators w))).
  { induction (w_operators w) as [|[x p] l IH]; [reflexivity|]. cbn. rewrite feq. destruct (x =? a); cbn; rewrite IH; reflexivity. }
  rewrite E. reflexivity.
Qed.

(** *** Swaps *)
Lemma pre_rn c p now : update_pre_swap (rename_config c) (rename_pool p) now = mapr rename_pool (update_pre_swap c p now).
Proof.
  unfold update_pre_swap. change (c_fees (rename_config c)) with (c_fees c). destruct (dyn_enabled _); [|reflexivity].
  same. reflexivity.
Qed.
Lemma apply_rn c p r fm d now :
  apply_swap_result (rename_config c) (rename_pool p) r fm d now = mapr rename_pool (apply_swap_result c p r fm d now).
Proof.
  unfold apply_swap_result. cbv zeta. apply (bind_map rename_pool).
  { unfold apply_fees. apply bind_id; [reflexivity|]. intros [x y] _. destruct (fm_on_base fm); do 5 same; reflexivity. }
  intros p1 _. same. apply (bind_map rename_pool).
  { unfold apply_reserves. destruct d; do 2 same; reflexivity. }
  intros p2 _. apply (bind_map rename_pool); [|reflexivity].
  unfold update_post_swap. change (c_fees (rename_config c)) with (c_fees c). destruct (dyn_enabled _); [|reflexivity].
  same. same. destruct (0 <? _); reflexivity.
Qed.
Lemma transfers_rn w a fm r : swap_transfers (rename w) (rename_swap a) fm r = mapr rename (swap_transfers w a fm r).
Proof.
  unfold swap_transfers. cbn [sa_dir rename_swap sa_user sa_referral]. apply (bind_map rename).
  { destruct (sa_dir a).
    - apply (bind_map rename); [exact (recv_base_rn w (PKey (sa_user a)) _)|]. intros w1 _. exact (pay_quote_rn w1 (PKey (sa_user a)) _).
    - apply (bind_map rename); [exact (recv_quote_rn w (PKey (sa_user a)) _)|]. intros w1 _. exact (pay_base_rn w1 (PKey (sa_user a)) _). }
  intros w1 _. destruct (sa_referral a) as [k|]; [|reflexivity]. cbn [option_map].
  destruct (fm_on_base fm); [exact (pay_base_rn w1 (PKey k) _)|exact (pay_quote_rn w1 (PKey k) _)].
Qed.
Lemma finish_rn w now : finish_curve (rename w) now = mapr rename (finish_curve w now).
Proof.
  unfold finish_curve. cbv zeta.
  change (is_curve_complete (w_pool (rename w)) (c_threshold (w_config (rename w))))
    with (is_curve_complete (w_pool w) (c_threshold (w_config w))).
  destruct (is_curve_complete _ _); [|reflexivity]. do 5 same. reflexivity.
Qed.
Lemma some_rn a : is_some (sa_referral (rename_swap a)) = is_some (sa_referral a).
Proof. cbn. destruct (sa_referral a); reflexivity. Qed.
Lemma swap_rn w a :
  swap_full (rename w) (rename_swap a) = mapr (fun r => (rename (fst r), snd r)) (swap_full w a).
Proof.
  unfold swap_full. cbv zeta. rewrite some_rn. do 4 same.
  apply (bind_map rename_pool); [apply pre_rn|]. intros p1 _.
  apply bind_id; [reflexivity|]. intros fm _. apply bind_id; [reflexivity|]. intros r _.
  apply (bind_map rename_pool); [exact (apply_rn (w_config w) p1 r fm _ _)|]. intros p2 _.
  apply (bind_map rename); [exact (transfers_rn (set_w_pool w p2) a fm r)|]. intros w1 _.
  apply (bind_map rename); [exact (finish_rn w1 _)|]. reflexivity.
Qed.

Lemma exec_rn w o : exec (rename w) (rename_op o) = mapr rename (exec w o).
Proof.
  unfold exec. apply bind_id; [destruct o; reflexivity|]. intros _ _.
  destruct o; cbn [rename_op].
  - unfold do_swap. apply (bind_map (fun r => (rename (fst r), snd r))); [apply swap_rn|]. reflexivity.
  - apply o_claim_partner.
  - apply o_claim_creator.
  - apply o_claim_protocol.
  - apply o_zap.
  - apply o_partner_surplus.
  - apply o_creator_surplus.
  - apply o_migration_fee.
  - apply o_leftover.
  - apply o_partner_creation.
  - apply o_protocol_creation.
  - apply o_transfer.
  - apply o_locker.
  - apply o_metadata.
  - apply o_v1.
  - apply o_v2.
  - apply o_lock.
  - apply o_claim.
  - apply o_create_operator.
  - apply o_close_operator.
  - exact (recv_base_rn w (PKey from) a).
  - exact (recv_quote_rn w (PKey from) a).
  - cbn [mapr]. rewrite log_rn. reflexivity.
  - apply bind_id.
    { cbn [w_mint_auth rename]. destruct (w_mint_auth w); cbn; [rewrite feq|]; reflexivity. }
    intros _ _. same. cbn [mapr]. rewrite log_rn. reflexivity.
  - same. cbn [mapr]. rewrite log_rn. reflexivity.
Qed.
Lemma run_rn ops : forall w,
  outcomes (rename w) (map rename_op ops) = outcomes w ops
  /\ run (rename w) (map rename_op ops) = rename (run w ops).
Proof.
  induction ops as [|o ops IH]; intros w; [split; reflexivity|].
  assert (E : step (rename w) (rename_op o) = rename (step w o)).
  { unfold step. rewrite exec_rn. destruct (exec w o); reflexivity. }
  destruct (IH (step w o)) as [J1 J2]. cbn [map outcomes]. unfold run in *. cbn [fold_left]. rewrite E, J1, exec_rn.
  split; [destruct (exec w o); reflexivity|exact J2].
Qed.
Lemma init_rn c key creator payer ty slot time admins operators :
  initialize_pool (rename_config c) key (f creator) (f payer) ty slot time (map f admins) (map rename_operator operators)
  = mapr rename (initialize_pool c key creator payer ty slot time admins operators).
Proof.
  unfold initialize_pool. do 5 same.
  apply (bind_map (option_map f)).
  { unfold get_update_authority. cbn [c_token_update_authority rename_config c_fee_claimer].
    destruct (_ || _); [reflexivity|]. destruct (_ || _); [reflexivity|]. destruct (_ =? 1); reflexivity. }
  intros u _. apply (bind_map (option_map f)).
  { unfold get_mint_authority. cbn [c_token_update_authority rename_config c_fee_claimer].
    destruct (_ =? 3); [reflexivity|]. destruct (_ =? 4); [reflexivity|]. destruct (_ && _); reflexivity. }
  intros m _. same. reflexivity.
Qed.
End Rename.

(** ** C99 *)

(** Everybody renamed, one to one: every instruction succeeds, or fails with the same error, as before, and
    the result is the same but for the names. There is no address to which the program gives a power
    that the config, the pool, or the lists of admins and operators do not name. *)
Theorem C99_names_carry_no_weight : forall f w o, one_to_one f ->
  exec (rename f w) (rename_op f o) = match exec w o with Ok w' => Ok (rename f w') | Err e => Err e end.
Proof. intros f w o F. exact (exec_rn f F w o). Qed.

(** From the creation of the pool on. *)
Theorem C99_whole_life : forall f c key creator payer ty slot time admins operators w0 ops, one_to_one f ->
  initialize_pool c key creator payer ty slot time admins operators = Ok w0 ->
  exists w1,
    initialize_pool (rename_config f c) key (f creator) (f payer) ty slot time (map f admins)
      (map (rename_operator f) operators) = Ok w1
    /\ outcomes w1 (map (rename_op f) ops) = outcomes w0 ops
    /\ run w1 (map (rename_op f) ops) = rename f (run w0 ops).
Proof.
  intros f c key creator payer ty slot time admins operators w0 ops F H. exists (rename f w0).
  split; [rewrite init_rn, H; reflexivity|]. apply run_rn. exact F.
Qed.

(** The config: only the null address is told apart. *)
Theorem C99_config : forall f q supported spl now mint claimer receiver, one_to_one f -> f 0 = 0 ->
  create_config q supported spl now mint (f claimer) (f receiver)
  = match create_config q supported spl now mint claimer receiver with
    | Ok c => Ok (rename_config f c) | Err e => Err e end.
Proof.
  intros f q supported spl now mint claimer receiver F F0.
  change (match ?x with Ok c => Ok (rename_config f c) | Err e => Err e end) with (mapr (rename_config f) x).
  unfold create_config. cbv zeta.
  do 6 (apply bind_id; [reflexivity|]; intros ? _).
  apply bind_id; [reflexivity|]. intros [ba qa] _.
  do 2 (apply bind_id; [reflexivity|]; intros ? _).
  apply bind_id.
  { unfold supply_of_params. destruct (q_token_supply q) as [[pre post]|]; [|reflexivity].
    apply bind_ext. intros ?. apply bind_ext. intros ?. apply bind_ext. intros ?.
    rewrite <- F0 at 1. rewrite (feq f F). reflexivity. }
  intros [[fl pre] post] _. do 2 (apply bind_id; [reflexivity|]; intros ? _). reflexivity.
Qed.

(** Two addresses that have no part in the creation of a pool could change places in everything that follows:
    as long as nobody hands them a role, one of them can do what the other can. *)
Definition exchange (k l x : Z) : Z := if x =? k then l else if x =? l then k else x.
Definition stranger (c : config) (creator payer : Z) (admins : list Z) (operators : list (Z * Z)) (k : Z) : Prop :=
  k <> c_fee_claimer c /\ k <> c_leftover_receiver c /\ k <> creator /\ k <> payer
  /\ ~ In k admins /\ ~ In k (map fst operators).
Lemma exchange_inj k l : one_to_one (exchange k l).
Proof.
  intros a b. unfold exchange.
  destruct (a =? k) eqn:A1, (b =? k) eqn:B1, (a =? l) eqn:A2, (b =? l) eqn:B2; lia.
Qed.
Lemma exchange_other k l x : x <> k -> x <> l -> exchange k l x = x.
Proof. intros A B. unfold exchange. replace (x =? k) with false by lia. replace (x =? l) with false by lia. reflexivity. Qed.

Theorem C99_strangers : forall k l c key creator payer ty slot time admins operators w0 ops,
  stranger c creator payer admins operators k -> stranger c creator payer admins operators l ->
  initialize_pool c key creator payer ty slot time admins operators = Ok w0 ->
  outcomes w0 (map (rename_op (exchange k l)) ops) = outcomes w0 ops
  /\ run w0 (map (rename_op (exchange k l)) ops) = rename (exchange k l) (run w0 ops).
Proof.
  intros k l c key creator payer ty slot time admins operators w0 ops
    (K1 & K2 & K3 & K4 & K5 & K6) (L1 & L2 & L3 & L4 & L5 & L6) H.
  pose proof (init_rn (exchange k l) c key creator payer ty slot time admins operators) as R.
  rewrite H in R. cbn [mapr] in R.
  assert (C : rename_config (exchange k l) c = c).
  { unfold rename_config. rewrite !exchange_other by auto. destruct c; reflexivity. }
  assert (A : map (exchange k l) admins = admins).
  { clear - K5 L5. induction admins as [|x r IH]; [reflexivity|]. cbn in *. rewrite IH, exchange_other by tauto.
    reflexivity. }
  assert (O : map (rename_operator (exchange k l)) operators = operators).
  { clear - K6 L6. induction operators as [|[x p] r IH]; [reflexivity|]. cbn in *.
    rewrite IH by tauto. unfold rename_operator. cbn. rewrite exchange_other by tauto. reflexivity. }
  rewrite C, A, O, !exchange_other, H in R by auto. apply Ok_inj in R.
  destruct (run_rn (exchange k l) (exchange_inj k l) ops w0) as [R1 R2]. rewrite <- R in R1, R2. split; assumption.
Qed.

(** ** Non-vacuity *)
Definition plus1000 (x : Z) : Z := if x =? 0 then 0 else if 0 <? x then x + 1000 else x.
Lemma plus1000_inj : one_to_one plus1000.
Proof. intros a b. unfold plus1000. destruct (a =? 0) eqn:?, (b =? 0) eqn:?, (0 <? a) eqn:?, (0 <? b) eqn:?; lia. Qed.
(** The whole life of pool A, with everybody's name changed; and the partner of old has no power in it. *)
Example C99_case :
  one_to_one plus1000 /\ plus1000 0 = 0
  /\ all_ok wA (histA1 ++ histA2 ++ histA3) = true
  /\ all_ok (rename plus1000 wA) (map (rename_op plus1000) (histA1 ++ histA2 ++ histA3)) = true
  /\ c_fee_claimer (w_config (rename plus1000 wA)) = 1022
  /\ outcome (exec (rename plus1000 (run wA histA1)) (OClaimPartner 22 22 0 100000000)) = Some EUnauthorized
  /\ outcome (exec (rename plus1000 (run wA histA1)) (OClaimPartner 1022 22 0 100000000)) = None.
Proof. split; [apply plus1000_inj|]. repeat split; vm_compute; reflexivity. Qed.
Example C99_case_strangers :
  stranger cfgA 44 55 [99] [] 500 /\ stranger cfgA 44 55 [99] [] 501
  /\ fx_world cfgA 0 = Ok wA
  /\ map (rename_op (exchange 500 501)) histA1 <> histA1.
Proof.
  assert (E : c_fee_claimer cfgA = 22 /\ c_leftover_receiver cfgA = 33) by (split; reflexivity).
  destruct E as [E1 E2]. unfold stranger. rewrite E1, E2. cbn [In map].
  split; [lia|]. split; [lia|]. split; [apply wA_created|vm_compute; congruence].
Qed.

Print Assumptions C99_names_carry_no_weight.
Print Assumptions C99_whole_life.
Print Assumptions C99_config.
Print Assumptions C99_strangers.
