(** * Whole transactions: what each instruction of a transaction observes.

    The program reads its transaction through the instructions sysvar, [get_stack_height] and
    [get_processed_sibling_instruction] (ix_swap.rs:347-483). This file models what the Solana
    runtime returns there for every instruction of a transaction. *)
From Coq Require Import ZArith List Bool.
From Verif Require Import Base TxModel.
Import ListNotations.
Open Scope Z_scope.

(** An instruction with the cross-program calls it makes, in order. Every call returns before the
    next one starts, and a failed call aborts the transaction, so a committed transaction is a
    list of such trees. *)
Inductive itree := INode (i : ixn) (calls : list itree).
Definition root (t : itree) : ixn := match t with INode i _ => i end.

(** Every instruction below [t] in the order in which they start, with what it observes.
    [has_sysvar] says whether the instruction was given the instructions sysvar as its first
    remaining account. [before], [top]: sysvar::instructions (ix_swap.rs:357-365, 386-391) lists
    only top-level instructions. [sibs]: calls already made by the same caller, latest first
    (ix_swap.rs:374, get_processed_sibling_instruction). *)
Fixpoint visit (has_sysvar : ixn -> bool) (before : list ixn) (top : ixn) (height : Z)
    (sibs : list ixn) (t : itree) {struct t} : list (ixn * view) :=
  match t with
  | INode i calls =>
    (i, mkView (has_sysvar i) before top height sibs)
    :: (fix go (sibs : list ixn) (l : list itree) {struct l} : list (ixn * view) :=
          match l with
          | [] => []
          | c :: r => visit has_sysvar before top (height + 1) sibs c ++ go (root c :: sibs) r
          end) [] calls
  end.

(** The calls of one instruction (the inner loop of [visit]). *)
Fixpoint visit_calls (has_sysvar : ixn -> bool) (before : list ixn) (top : ixn) (height : Z)
    (sibs : list ixn) (l : list itree) : list (ixn * view) :=
  match l with
  | [] => []
  | c :: r => visit has_sysvar before top height sibs c
              ++ visit_calls has_sysvar before top height (root c :: sibs) r
  end.

(** A transaction: its top-level instructions in order, at stack height 1. *)
Fixpoint visit_tx (has_sysvar : ixn -> bool) (before : list ixn) (tx : list itree)
  : list (ixn * view) :=
  match tx with
  | [] => []
  | t :: r => visit has_sysvar before (root t) 1 (rev before) t
              ++ visit_tx has_sysvar (before ++ [root t]) r
  end.

(** All instructions of a tree. *)
Inductive within : ixn -> itree -> Prop :=
| within_root i l : within i (INode i l)
| within_call i j l c : In c l -> within i c -> within i (INode j l).

(** What the runtime and the account layout guarantee:
    - a caller can only pass accounts it was given itself;
    - this program is not re-entered: below one of its instructions no swap of it runs (its only
      self-call is the event log, [#[event_cpi]]). *)
Inductive wf_tree : itree -> Prop :=
| wf_node i l :
    (forall c, In c l -> incl (ix_accounts (root c)) (ix_accounts i)) ->
    (ix_program i = SELF -> forall c j, In c l -> within j c -> ix_program j = SELF ->
       is_swap_kind (ix_kindof j) = false) ->
    (forall c, In c l -> wf_tree c) ->
    wf_tree (INode i l).

(** A swap on [pool]: account 2 of the instruction (ix_swap.rs:67-79, 417). *)
Definition swap_of (pool : Z) (i : ixn) : Prop :=
  ix_program i = SELF /\ ix_kindof i = KSwap /\ nth_error (ix_accounts i) 2 = Some pool.

(** An initialisation of [pool]: account 5 (ix_swap.rs:465-475). *)
Definition init_of (pool : Z) (i : ixn) : Prop :=
  ix_program i = SELF /\ ix_kindof i = KInit /\ nth_error (ix_accounts i) 5 = Some pool.
