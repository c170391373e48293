(** * Quantities summed over a history of instructions.

    Independent of how the program keeps its counters: a swap is read off its receipt (the result it
    reports in its event), a payment is read off the token movements it causes. *)
From Coq Require Import ZArith List Bool.
From Verif Require Import Base MathModel CurveModel FeeModel ConfigModel PoolModel SystemModel Spec.
Import ListNotations.
Open Scope Z_scope.

(** Sum of [f] over the instructions of a history, each taken at the state it runs in. *)
Fixpoint total (f : world -> op -> Z) (w : world) (ops : list op) : Z :=
  match ops with
  | [] => 0
  | o :: r => f w o + total f (step w o) r
  end.

(** What a successful swap reports. *)
Definition receipt (w : world) (o : op) : option (swap_args * swap_result) :=
  match o with
  | OSwap a =>
      match exec w o, swap_full w a with
      | Ok _, Ok (_, r) => Some (a, r)
      | _, _ => None
      end
  | _ => None
  end.

(** The token in which a swap is charged: the quote token, or the token bought. *)
Definition charge_token (c : config) (d : direction) : token :=
  if c_collect_fee_mode c =? 1 then token_out d else TQuote.

Definition trading_fee (t : token) (w : world) (o : op) : Z :=
  match receipt w o with
  | Some (a, r) => on (charge_token (w_config w) (sa_dir a)) t (sr_trading r)
  | None => 0
  end.
Definition protocol_fee (t : token) (w : world) (o : op) : Z :=
  match receipt w o with
  | Some (a, r) => on (charge_token (w_config w) (sa_dir a)) t (sr_protocol r)
  | None => 0
  end.

(** The creator gets the configured percentage of each trading fee, rounded down; the partner the rest. *)
Definition creator_share (t : token) (w : world) (o : op) : Z :=
  trading_fee t w o * c_creator_trading_fee_pct (w_config w) / 100.
Definition partner_share (t : token) (w : world) (o : op) : Z :=
  trading_fee t w o - creator_share t w o.

(** Token movements caused by one instruction, and what the pool pays out by them. *)
Definition moved (w : world) (o : op) : list transfer :=
  skipn (length (w_log w)) (w_log (step w o)).
Definition paid (t : token) (w : world) (o : op) : Z := - net t (moved w o).

Definition partner_claims (t : token) (w : world) (o : op) : Z :=
  match o with OClaimPartner _ _ _ _ => paid t w o | _ => 0 end.
Definition creator_claims (t : token) (w : world) (o : op) : Z :=
  match o with OClaimCreator _ _ _ _ => paid t w o | _ => 0 end.
Definition protocol_claims (t : token) (w : world) (o : op) : Z :=
  match o with OClaimProtocol _ _ _ | OZap _ _ _ _ _ => paid t w o | _ => 0 end.

(** The protocol's cut of the tokens that leave for the migrated pool. *)
Definition migration_cut (t : token) (p : pool) : Z :=
  match t with TBase => p_mig_base_fee p | TQuote => p_mig_quote_fee p | _ => 0 end.
Definition cut_at_migration (t : token) (w : world) (o : op) : Z :=
  match o with
  | OMigrateV1 _ _ | OMigrateV2 _ _ => migration_cut t (w_pool (step w o))
  | _ => 0
  end.
(** A history can migrate only once, so at most one term of the sum of cuts is not zero when the
    history starts before migration; see [C24_migrates_once]. A failed migration must not count: *)
Definition cut (t : token) (w : world) (o : op) : Z :=
  if is_ok (exec w o) then cut_at_migration t w o else 0.

(** The protocol's share of the surplus, if it has been paid. *)
Definition protocol_surplus_paid (t : token) (w : world) : Z :=
  match t with
  | TQuote => if p_protocol_surplus (w_pool w) =? 1
              then surplus_protocol (w_config w) (p_quote (w_pool w)) else 0
  | _ => 0
  end.

(** The pool's fee metrics. *)
Definition metric_trading (t : token) (p : pool) : Z :=
  match t with TBase => p_m_trading_base p | TQuote => p_m_trading_quote p | _ => 0 end.
Definition metric_protocol (t : token) (p : pool) : Z :=
  match t with TBase => p_m_protocol_base p | TQuote => p_m_protocol_quote p | _ => 0 end.

(** Base tokens that a holder destroys. *)
Definition holder_burn (w : world) (o : op) : Z :=
  match o with OBurn _ a => if is_ok (exec w o) then a else 0 | _ => 0 end.

(** How often instructions of one kind succeed in a history, and what they pay in total. *)
Definition success (kind : op -> bool) (w : world) (o : op) : Z :=
  if kind o && is_ok (exec w o) then 1 else 0.
Definition paid_by (kind : op -> bool) (t : token) (w : world) (o : op) : Z :=
  if kind o then paid t w o else 0.

Definition partner_surplus_op (o : op) := match o with OPartnerSurplus _ _ => true | _ => false end.
Definition creator_surplus_op (o : op) := match o with OCreatorSurplus _ _ => true | _ => false end.
Definition partner_migration_fee_op (o : op) :=
  match o with OMigrationFee _ _ f => f =? 0 | _ => false end.
Definition creator_migration_fee_op (o : op) :=
  match o with OMigrationFee _ _ f => negb (f =? 0) | _ => false end.
Definition partner_creation_fee_op (o : op) :=
  match o with OPartnerCreationFee _ _ => true | _ => false end.
Definition protocol_creation_fee_op (o : op) :=
  match o with OProtocolCreationFee _ => true | _ => false end.
Definition leftover_op (o : op) := match o with OLeftover => true | _ => false end.
Definition migrate_op (o : op) :=
  match o with OMigrateV1 _ _ | OMigrateV2 _ _ => true | _ => false end.

(** Never, or exactly once, and then the amount is [x]. *)
Definition at_most_once (kind : op -> bool) (t : token) (w : world) (ops : list op) (x : Z) : Prop :=
  (total (success kind) w ops = 0 /\ total (paid_by kind t) w ops = 0)
  \/ (total (success kind) w ops = 1 /\ total (paid_by kind t) w ops = x).

(** Who signs an instruction, if its success depends on it. *)
Definition signer_of (o : op) : option Z :=
  match o with
  | OSwap a => Some (sa_user a)
  | OClaimPartner s _ _ _ | OClaimCreator s _ _ _ | OClaimProtocol s _ _ | OZap s _ _ _ _
  | OPartnerSurplus s _ | OCreatorSurplus s _ | OMigrationFee s _ _
  | OPartnerCreationFee s _ | OProtocolCreationFee s | OTransferCreator s _
  | OCreateOperator s _ _ | OCloseOperator s _ | OMint s _ _ | OBurn s _ => Some s
  | _ => None
  end.
