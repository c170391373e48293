(** * What the theorems about accounts say: a specification in terms of accounts and balances only *)
From Coq Require Import ZArith List Bool.
From Verif Require Import Base MathModel CurveModel FeeModel ConfigModel PoolModel TxModel SystemModel
  Spec InvProofs AcctModel AcctInv.
Import ListNotations.
Open Scope Z_scope.

(** Any list of instructions, sent by anyone with any accounts, after a genesis state without accounts. *)
Definition history (b : bank) : Prop :=
  exists admins treasury is, Forall typed is /\ b = brun (genesis admins treasury) is.

(** The balance of a token account (0 if there is none), and the tokens of one mint it holds. *)
Definition balance (b : bank) (y : addr) : Z :=
  match b_acc b y with Some (ATok _ _ n) => n | _ => 0 end.
Definition held (b : bank) (m : Z) (y : addr) : Z :=
  match b_acc b y with Some (ATok m' _ n) => if m' =? m then n else 0 | _ => 0 end.
Definition total (b : bank) (m : Z) (l : list addr) : Z := fold_right (fun y s => held b m y + s) 0 l.

(** [l] contains every account that differs between [b] and [b']. *)
Definition covers (b b' : bank) (l : list addr) : Prop := forall y, In y l \/ b_acc b' y = b_acc b y.

(** The accounts of pool [a] say what the single-pool world [w] says. With [up], the vault balances
    and the lamports may be larger (somebody sent tokens to the pool). *)
Definition at_least (up : bool) (x y : Z) : Prop := if up then x <= y else x = y.
Record shows (up : bool) (b : bank) (a : addr) (w : world) (p : poolacct) : Prop := {
  sh_pool : b_acc b a = Some (APool p);
  sh_state : pa_pool p = w_pool w;
  sh_config : b_acc b (Ext (pa_config p)) = Some (AConfig (w_config w));
  sh_lamports : at_least up (w_lamports w) (pa_lamports p);
  sh_base : exists n, b_acc b (pa_bvault p) = Some (ATok (pa_bmint p) Auth n) /\ at_least up (w_bvault w) n;
  sh_quote : exists n, b_acc b (pa_qvault p) = Some (ATok (c_quote_mint (w_config w)) Auth n)
                       /\ at_least up (w_qvault w) n;
  sh_meta : forall m, w_meta w = Some m <-> exists l, b_acc b (MetaA a) = Some (AMeta m a l);
  sh_lp : forall m l, b_acc b (MetaA a) = Some (AMeta m a (Some l)) -> w_lp w <= balance b (AtaA Auth l);
  sh_ops : w_operators w = b_ops b;
  sh_admins : w_admins w = b_admins b }.

(** Tokens that went to another program or were burned. *)
Definition outflow (k : token) (l : list transfer) : Z :=
  fold_right (fun t s =>
    match t_from t, t_to t with
    | PPool, (PDamm | PEscrow | PLock _ | PMint) => if same_token k (t_token t) then t_amount t + s else s
    | _, _ => s
    end) 0 l.
