(** * The off-chain quote library: dynamic-bonding-curve-sdk/src *)
From Coq Require Import ZArith List Bool.
From Verif Require Import Base FeeModel ConfigModel PoolModel SystemModel.
Open Scope Z_scope.

(** The lines shared by the three functions (quote_exact_in.rs:18-38, quote_exact_out.rs:17-38,
    quote_partial_fill.rs:18-38): the checks, the current point, the direction and the fee mode.
    Simplification: [anyhow] messages are mapped to the program's error codes. *)
Definition sdk_prepare (c : config) (p : pool) (sell : bool) (time slot amount : Z)
    (has_referral : bool) : res (Z * direction * fee_mode) :=
  do _ <- require (negb (is_curve_complete p (c_threshold c))) EPoolIsCompleted ;;
  do _ <- require (0 <? amount) EAmountIsZero ;;
  do a <- activation_of (c_activation_type c) ;;
  let cur := match a with ActSlot => slot | ActTimestamp => time end in
  let d := if sell then BaseToQuote else QuoteToBase in
  do fm <- get_fee_mode (c_collect_fee_mode c) d has_referral ;;
  Ok (cur, d, fm).

(** dynamic-bonding-curve-sdk/src/quote_exact_in.rs:8-49 *)
Definition quote_exact_in (p : pool) (c : config) (sell : bool) (time slot amount : Z)
    (has_referral eligible : bool) : res swap_result :=
  do k <- sdk_prepare c p sell time slot amount has_referral ;;
  let '(cur, d, fm) := k in
  swap_exact_in c p amount fm d cur eligible.

(** dynamic-bonding-curve-sdk/src/quote_partial_fill.rs:8-49 *)
Definition quote_partial_fill (p : pool) (c : config) (sell : bool) (time slot amount : Z)
    (has_referral eligible : bool) : res swap_result :=
  do k <- sdk_prepare c p sell time slot amount has_referral ;;
  let '(cur, d, fm) := k in
  swap_partial c p amount fm d cur eligible.

(** dynamic-bonding-curve-sdk/src/quote_exact_out.rs:8-49: no referral parameter; the fee mode is
    always built without one. *)
Definition quote_exact_out (p : pool) (c : config) (sell : bool) (time slot amount : Z)
    (eligible : bool) : res swap_result :=
  do k <- sdk_prepare c p sell time slot amount false ;;
  let '(cur, d, fm) := k in
  swap_exact_out c p amount fm d cur eligible.
