(** * Model of the transaction introspection in src/instructions/swap/ix_swap.rs:347-483 *)
From Coq Require Import ZArith List Bool.
From Verif Require Import Base.
Import ListNotations.
Open Scope Z_scope.

(** Address of this program (lib.rs:34 declare_id). The value is irrelevant: it is only compared. *)
Definition SELF : Z := 1.

(** The instruction discriminators the code distinguishes: [Swap] and [Swap2]
    (ix_swap.rs:411-420), the two pool initialisers (ix_swap.rs:459-463), anything else.
    Instruction data shorter than 8 bytes never reaches a handler of this program. *)
Inductive ix_kind := KSwap | KInit | KOther.

(** One instruction as seen through the instructions sysvar or the sibling syscall. *)
Record ixn := mkIx { ix_program : Z; ix_accounts : list Z; ix_kindof : ix_kind }.

(** What a running swap instruction can observe about its transaction:
    [v_sysvar] — the instructions sysvar is the first remaining account;
    [v_before] — the top-level instructions before the current one, in order;
    [v_current] — the current top-level instruction;
    [v_height] — [get_stack_height()] (1 for a top-level instruction);
    [v_siblings] — [get_processed_sibling_instruction(0)], (1), ... *)
Record view := mkView {
  v_sysvar : bool; v_before : list ixn; v_current : ixn; v_height : Z; v_siblings : list ixn }.

Definition is_swap_kind (k : ix_kind) : bool := match k with KSwap => true | _ => false end.
Definition is_init_kind (k : ix_kind) : bool := match k with KInit => true | _ => false end.

(** ix_swap.rs:411-420 [is_instruction_include_pool_swap]; accounts[2] out of range panics. *)
Definition include_pool_swap (i : ixn) (pool : Z) : res bool :=
  if is_swap_kind (ix_kindof i) then
    match nth_error (ix_accounts i) 2 with
    | Some a => Ok (a =? pool)
    | None => Err EPanic
    end
  else Ok false.

(** ix_swap.rs:366-380: the sibling loop. *)
Fixpoint check_siblings (l : list ixn) (pool : Z) : res unit :=
  match l with
  | [] => Ok tt
  | i :: rest =>
    do _ <- (if ix_program i =? SELF then
               do b <- include_pool_swap i pool ;;
               require (negb b) EFailToValidateSingleSwapInstruction
             else Ok tt) ;;
    check_siblings rest pool
  end.

(** ix_swap.rs:386-407: the loop over earlier top-level instructions. *)
Fixpoint check_before (l : list ixn) (pool : Z) : res unit :=
  match l with
  | [] => Ok tt
  | i :: rest =>
    do _ <- (if negb (ix_program i =? SELF) then
               require (negb (existsb (fun a => a =? pool) (ix_accounts i)))
                       EFailToValidateSingleSwapInstruction
             else
               do b <- include_pool_swap i pool ;;
               require (negb b) EFailToValidateSingleSwapInstruction) ;;
    check_before rest pool
  end.

(** ix_swap.rs:347-409 [validate_single_swap_instruction] *)
Definition validate_single_swap (v : view) (pool : Z) : res unit :=
  do _ <- require (v_sysvar v) EFailToValidateSingleSwapInstruction ;;
  do _ <- (if negb (ix_program (v_current v) =? SELF) then
             do _ <- require (v_height v <=? 2) EFailToValidateSingleSwapInstruction ;;
             check_siblings (v_siblings v) pool
           else Ok tt) ;;
  check_before (v_before v) pool.

(** ix_swap.rs:453-480: some earlier top-level instruction of this program initialises [pool]. *)
Definition is_pool_init (i : ixn) (pool : Z) : bool :=
  (ix_program i =? SELF) && is_init_kind (ix_kindof i)
  && match nth_error (ix_accounts i) 5 with Some a => a =? pool | None => false end.

(** ix_swap.rs:422-483 [validate_contain_initialize_pool_ix_and_no_cpi] *)
Definition validate_contain_init (v : view) (has_referral : bool) (pool : Z) : res unit :=
  do _ <- require (negb has_referral) EUndeterminedError ;;
  do _ <- require (v_sysvar v) EUndeterminedError ;;
  do _ <- require (ix_program (v_current v) =? SELF) EUndeterminedError ;;
  require (existsb (fun i => is_pool_init i pool) (v_before v)) EUndeterminedError.
