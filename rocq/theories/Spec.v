(** * Specification, written without the model's helper functions.

    The exact (unrounded) bonding curve, in integers scaled by 2^128 for quote and in rationals
    for base; what it means for parameters to fit their Rust types; reachable worlds. *)
From Coq Require Import ZArith QArith List Bool.
From Verif Require Import Base MathModel FeeModel ConfigModel PoolModel TxModel SystemModel.
Import ListNotations.
Open Scope Z_scope.

(** ** The exact curve

    A curve is a start price and a list of points (upper sqrt price, liquidity). Prices are
    sqrt prices scaled by 2^64. In a segment of liquidity [L], moving the sqrt price from [a] up
    to [b] takes [L * (b - a) / 2^128] quote in and [L * (1/a - 1/b)] base out. *)

(** The part of the segment [[low, up]] that lies below price [x]. *)
Definition covered (low up x : Z) : Z := Z.max low (Z.min up x).

(** Quote (times 2^128) collected by the curve when the price is [x]. *)
Fixpoint quote_area (low : Z) (curve : list point) (x : Z) : Z :=
  match curve with
  | [] => 0
  | (p, l) :: rest => l * (covered low p x - low) + quote_area p rest x
  end.

(** Base sold by the curve when the price is [x]. *)
Fixpoint base_area (low : Z) (curve : list point) (x : Z) : Q :=
  match curve with
  | [] => 0%Q
  | (p, l) :: rest =>
    (inject_Z l * (/ inject_Z low - / inject_Z (covered low p x)) + base_area p rest x)%Q
  end.

(** The smallest integer not below [a / b]. *)
Definition ceil_div (a b : Z) : Z := - ((- a) / b).

(** Quote collected at price [x] when each segment is rounded up separately. *)
Fixpoint quote_area_ceil (low : Z) (curve : list point) (x : Z) : Z :=
  match curve with
  | [] => 0
  | (p, l) :: rest =>
    ceil_div (l * (covered low p x - low)) (2 ^ 128) + quote_area_ceil p rest x
  end.

(** Strictly increasing prices above [low], positive liquidity. *)
Fixpoint curve_wf (low : Z) (curve : list point) : Prop :=
  match curve with
  | [] => True
  | (p, l) :: rest => low < p /\ 0 < l /\ curve_wf p rest
  end.

(** Price of the last point. *)
Fixpoint top_price (low : Z) (curve : list point) : Z :=
  match curve with
  | [] => low
  | (p, _) :: rest => top_price p rest
  end.

(** ** Parameters fit their Rust types (ix_create_config.rs:42-79, 224-250) *)
Definition base_fee_typed (b : base_fee) : Prop :=
  u64ok (bf_cliff b) /\ u16ok (bf_first b) /\ u64ok (bf_second b) /\ u64ok (bf_third b)
  /\ u8ok (bf_mode b).
Definition dyn_typed (d : dynamic_fee) : Prop :=
  u8ok (df_initialized d) /\ u32ok (df_max_va d) /\ u32ok (df_vfc d) /\ u16ok (df_bin_step d)
  /\ u16ok (df_filter d) /\ u16ok (df_decay d) /\ u16ok (df_reduction d)
  /\ u128ok (df_bin_step_u128 d).
Definition locked_vesting_typed (v : locked_vesting) : Prop :=
  u64ok (lv_amount_per_period v) /\ u64ok (lv_cliff_duration v) /\ u64ok (lv_frequency v)
  /\ u64ok (lv_number_of_period v) /\ u64ok (lv_cliff_unlock_amount v).
Definition lvparams_typed (v : liq_vesting_params) : Prop :=
  u8ok (vq_percentage v) /\ u16ok (vq_bps_per_period v) /\ u16ok (vq_periods v)
  /\ u32ok (vq_cliff v) /\ u32ok (vq_frequency v).

Record params_typed (q : config_params) : Prop := {
  pt_base : base_fee_typed (q_base_fee q);
  pt_dyn : match q_dynamic_fee q with Some d => dyn_typed d | None => True end;
  pt_collect : u8ok (q_collect_fee_mode q);
  pt_mopt : u8ok (q_migration_option q);
  pt_act : u8ok (q_activation_type q);
  pt_ttype : u8ok (q_token_type q);
  pt_dec : u8ok (q_token_decimal q);
  pt_pl : u8ok (q_partner_liq_pct q);
  pt_pp : u8ok (q_partner_perm_pct q);
  pt_cl : u8ok (q_creator_liq_pct q);
  pt_cp : u8ok (q_creator_perm_pct q);
  pt_threshold : u64ok (q_threshold q);
  pt_start : u128ok (q_start q);
  pt_vesting : locked_vesting_typed (q_vesting q);
  pt_mfo : u8ok (q_migration_fee_option q);
  pt_supply : match q_token_supply q with Some (a, b) => u64ok a /\ u64ok b | None => True end;
  pt_ctf : u8ok (q_creator_trading_fee_pct q);
  pt_tua : u8ok (q_token_update_authority q);
  pt_mfp : u8ok (q_migration_fee_pct q);
  pt_cmfp : u8ok (q_creator_migration_fee_pct q);
  pt_mcm : u8ok (q_migrated_collect_mode q);
  pt_mdf : u8ok (q_migrated_dynamic_fee q);
  pt_mpf : u16ok (q_migrated_pool_fee_bps q);
  pt_pcf : u64ok (q_pool_creation_fee q);
  pt_pv : lvparams_typed (q_partner_vesting q);
  pt_cv : lvparams_typed (q_creator_vesting q);
  pt_mbm : u8ok (q_migrated_base_fee_mode q);
  pt_mcn : u16ok (q_mc_number_of_period q);
  pt_mcs : u16ok (q_mc_price_step q);
  pt_mce : u32ok (q_mc_expiration q);
  pt_mcr : u64ok (q_mc_reduction q);
  pt_cfb : u16ok (q_compounding_fee_bps q);
  pt_curve : Forall (fun pl => u128ok (fst pl) /\ u128ok (snd pl)) (q_curve q)
}.

(** A config account produced by the create_config instruction. *)
Definition created (c : config) : Prop :=
  exists q supported spl now quote_mint claimer leftover,
    params_typed q /\ u64ok now /\
    create_config q supported spl now quote_mint claimer leftover = Ok c.

(** A world right after pool creation under such a config. *)
Definition initial (w : world) : Prop :=
  exists c key creator payer tt slot time admins operators,
    created c /\ u64ok slot /\ u64ok time /\
    initialize_pool c key creator payer tt slot time admins operators = Ok w.

(** Any history of instructions by anybody, after pool creation. *)
Definition reachable (w : world) : Prop := exists w0 ops, initial w0 /\ w = run w0 ops.

(** The points of a config's curve that are in use. *)
Definition curve_points (c : config) : list point :=
  filter (fun pl => negb (snd pl =? 0)) (c_curve c).

(** The division of a trading fee: 20% (rounded down) to the protocol side, of which 20% (rounded
    down) goes to a referrer if there is one; the rest is the trading fee of partner and creator. *)
Definition fee_parts (fee : Z) (has_referral : bool) (trading protocol referral : Z) : Prop :=
  trading = fee - fee * 20 / 100
  /\ referral = (if has_referral then fee * 20 / 100 * 20 / 100 else 0)
  /\ protocol = fee * 20 / 100 - referral.

(** ** What a pool owes

    Amounts that parties are still entitled to, from the config and the pool's counters. *)
Definition migration_fee_total (c : config) : Z := c_threshold c * c_migration_fee_pct c / 100.
Definition migration_fee_creator (c : config) : Z :=
  migration_fee_total c * c_creator_migration_fee_pct c / 100.
Definition migration_fee_partner (c : config) : Z :=
  migration_fee_total c - migration_fee_creator c.

(** [quote] is the pool's final quote reserve. *)
Definition surplus_total (c : config) (quote : Z) : Z := quote - c_threshold c.
Definition surplus_shared (c : config) (quote : Z) : Z := surplus_total c quote * 80 / 100.
Definition surplus_creator (c : config) (quote : Z) : Z :=
  surplus_shared c quote * c_creator_trading_fee_pct c / 100.
Definition surplus_partner (c : config) (quote : Z) : Z :=
  surplus_shared c quote - surplus_creator c quote.
Definition surplus_protocol (c : config) (quote : Z) : Z :=
  surplus_total c quote - surplus_shared c quote.

(** An amount that is paid once: owed until its flag is set. *)
Definition unless (done : bool) (x : Z) : Z := if done then 0 else x.

(** Migration progress: 0 trading, 1 curve complete, 2 vesting locked, 3 migrated. *)
Definition quote_owed (w : world) : Z :=
  let c := w_config w in
  let p := w_pool w in
  p_partner_quote p + p_creator_quote p + p_protocol_quote p
  + (if p_progress p =? 0 then p_quote p
     else
       (if p_progress p =? 3 then p_mig_quote_fee p else c_threshold c - migration_fee_total c)
       + unless (Z.testbit (p_mig_fee_status p) 2) (migration_fee_partner c)
       + unless (Z.testbit (p_mig_fee_status p) 1) (migration_fee_creator c)
       + unless (p_partner_surplus p =? 1) (surplus_partner c (p_quote p))
       + unless (p_creator_surplus p =? 1) (surplus_creator c (p_quote p))
       + unless (p_protocol_surplus p =? 1) (surplus_protocol c (p_quote p))).

Definition vesting_total (c : config) : Z :=
  lv_cliff_unlock_amount (c_vesting c)
  + lv_amount_per_period (c_vesting c) * lv_number_of_period (c_vesting c).

Definition base_owed (w : world) : Z :=
  let c := w_config w in
  let p := w_pool w in
  p_partner_base p + p_creator_base p + p_protocol_base p
  + (if p_progress p =? 0 then p_base p
     else if p_progress p =? 1 then c_base_threshold c + vesting_total c
     else if p_progress p =? 2 then c_base_threshold c
     else p_mig_base_fee p).

Definition creation_fee_protocol (c : config) : Z := c_pool_creation_fee c * 10 / 100.
Definition lamports_owed (w : world) : Z :=
  let c := w_config w in
  unless (Z.testbit (p_creation_bits (w_pool w)) 0) (creation_fee_protocol c)
  + unless (Z.testbit (p_creation_bits (w_pool w)) 1)
           (c_pool_creation_fee c - creation_fee_protocol c).

(** DAMM v1 LP tokens not yet locked or handed out. *)
Definition lp_owed (w : world) : Z :=
  match w_meta w with
  | None => 0
  | Some m =>
    unless (m_partner_lock_done m =? 1) (m_partner_locked m)
    + unless (m_creator_lock_done m =? 1) (m_creator_locked m)
    + unless (m_partner_claim_done m =? 1) (m_partner_liq m)
    + unless (m_creator_claim_done m =? 1) (m_creator_liq m)
  end.

(** ** What a swap looks like from outside *)
Definition token_in (d : direction) : token :=
  match d with QuoteToBase => TQuote | BaseToQuote => TBase end.
Definition token_out (d : direction) : token :=
  match d with QuoteToBase => TBase | BaseToQuote => TQuote end.

(** Balances of a pool by token. *)
Definition reserve (t : token) (p : pool) : Z :=
  match t with TBase => p_base p | TQuote => p_quote p | _ => 0 end.
Definition partner_fees (t : token) (p : pool) : Z :=
  match t with TBase => p_partner_base p | TQuote => p_partner_quote p | _ => 0 end.
Definition creator_fees (t : token) (p : pool) : Z :=
  match t with TBase => p_creator_base p | TQuote => p_creator_quote p | _ => 0 end.
Definition protocol_fees (t : token) (p : pool) : Z :=
  match t with TBase => p_protocol_base p | TQuote => p_protocol_quote p | _ => 0 end.
Definition vault (t : token) (w : world) : Z :=
  match t with TBase => w_bvault w | TQuote => w_qvault w | _ => 0 end.

(** The token movements of one swap: the trader pays, is paid, and the referrer (if any) is
    paid in the fee token. *)
Definition swap_movements (a : swap_args) (paid got : Z) (ft : token) (referral : Z)
  : list transfer :=
  mkTransfer (token_in (sa_dir a)) (PKey (sa_user a)) PPool paid
  :: mkTransfer (token_out (sa_dir a)) PPool (PKey (sa_user a)) got
  :: match sa_referral a with
     | Some k => [mkTransfer ft PPool (PKey k) referral]
     | None => []
     end.

(** [x] if the fee token [ft] is [t]. *)
Definition on (ft t : token) (x : Z) : Z :=
  match ft, t with TBase, TBase | TQuote, TQuote => x | _, _ => 0 end.

(** The clock a config uses, and whether its rate limiter (base fee mode 2) is in force for a
    trade: only buys, only within the window after activation. *)
Definition point_of (c : config) (slot time : Z) : Z :=
  if c_activation_type c =? 0 then slot else time.
Definition limiter_active (c : config) (activation point : Z) (d : direction) : Prop :=
  let b := pf_base (c_fees c) in
  bf_mode b = 2 /\ ~ (bf_first b = 0 /\ bf_second b = 0 /\ bf_third b = 0)
  /\ d = QuoteToBase /\ point <= activation + bf_second b.

(** ** The ledger: what a list of token movements does to the pool's accounts *)
Definition is_pool (x : party) : bool := match x with PPool => true | _ => false end.
Definition same_token (a b : token) : bool :=
  match a, b with TBase, TBase | TQuote, TQuote | TSol, TSol | TLp, TLp => true | _, _ => false end.
Definition flow (t : token) (x : transfer) : Z :=
  if same_token t (t_token x)
  then (if is_pool (t_to x) then t_amount x else 0) - (if is_pool (t_from x) then t_amount x else 0)
  else 0.
Fixpoint net (t : token) (l : list transfer) : Z :=
  match l with [] => 0 | x :: r => flow t x + net t r end.
