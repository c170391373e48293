(** Concrete, non-trivial cases for the theorems about a single swap (PropSwap.v): each one is a
    swap in the fixture history of pool A that meets the theorem's hypotheses, with effects that
    are not all zero. *)
From Coq Require Import ZArith List Bool.
From Verif Require Import Base MathModel CurveModel FeeModel ConfigModel PoolModel TxModel
  SystemModel Fixtures Spec PropSwap FixturesReach.
Import ListNotations.
Local Open Scope Z_scope.

(** Pool A before the [n]-th instruction of its history. *)
Definition before (n : nat) : world := run wA (firstn n histA1).

(** The [n]-th instruction is a swap that succeeds, and [ok before arguments after] holds. *)
Definition swap_case (n : nat) (ok : world -> swap_args -> world -> bool) : bool :=
  match nth_error histA1 n with
  | Some (OSwap a) => match exec (before n) (OSwap a) with
                      | Ok w' => ok (before n) a w'
                      | Err _ => false
                      end
  | _ => false
  end.

Lemma before_reachable n : reachable (before n).
Proof. apply reachA. Qed.

Lemma swap_case_meets : forall n ok, swap_case n ok = true ->
  exists a w', reachable (before n) /\ exec (before n) (OSwap a) = Ok w'
               /\ ok (before n) a w' = true.
Proof.
  intros n ok H. unfold swap_case in H. destruct (nth_error histA1 n) as [o|]; [|discriminate].
  destruct o; try discriminate. destruct (exec (before n) (OSwap _)) as [w'|] eqn:E; [|discriminate].
  eexists _, w'. split; [apply before_reachable|]. split; eassumption.
Qed.

(** C02: a buy with a referrer and a slippage limit of 1, and a sale. *)
Example C02_case : exists a w', reachable (before 1) /\ exec (before 1) (OSwap a) = Ok w'
  /\ ((sa_mode a =? 0) && (0 <? sa_amount1 a)
      && (0 <? p_base (w_pool (before 1)) - p_base (w_pool w'))) = true.
Proof. apply (swap_case_meets 1 (fun w a w' => _)). vm_compute. reflexivity. Qed.

(** C03: exact-out purchase below its limit. *)
Example C03_case : exists a w', reachable (before 3) /\ exec (before 3) (OSwap a) = Ok w'
  /\ ((sa_mode a =? 2) && (0 <? sa_amount0 a)
      && (p_base (w_pool (before 3)) - p_base (w_pool w') =? sa_amount0 a)) = true.
Proof. apply (swap_case_meets 3 (fun w a w' => _)). vm_compute. reflexivity. Qed.

(** C06, C07: all four shares of the fee are positive. *)
Example C06_case : exists a w', reachable (before 1) /\ exec (before 1) (OSwap a) = Ok w'
  /\ (match sa_referral a with Some _ => true | None => false end
      && (p_protocol_quote (w_pool (before 1)) <? p_protocol_quote (w_pool w'))
      && (p_partner_quote (w_pool (before 1)) <? p_partner_quote (w_pool w'))
      && (p_creator_quote (w_pool (before 1)) <? p_creator_quote (w_pool w'))) = true.
Proof. apply (swap_case_meets 1 (fun w a w' => _)). vm_compute. reflexivity. Qed.
Definition C07_case := C06_case.

(** C10, C11: a buy raises and a sale lowers the price. *)
Example C10_case_buy : exists a w', reachable (before 1) /\ exec (before 1) (OSwap a) = Ok w'
  /\ (match sa_dir a with QuoteToBase => true | BaseToQuote => false end
      && (p_price (w_pool (before 1)) <? p_price (w_pool w'))) = true.
Proof. apply (swap_case_meets 1 (fun w a w' => _)). vm_compute. reflexivity. Qed.
Example C10_case_sell : exists a w', reachable (before 2) /\ exec (before 2) (OSwap a) = Ok w'
  /\ (match sa_dir a with QuoteToBase => false | BaseToQuote => true end
      && (p_price (w_pool w') <? p_price (w_pool (before 2)))) = true.
Proof. apply (swap_case_meets 2 (fun w a w' => _)). vm_compute. reflexivity. Qed.

(** C11: the reserves move strictly in the pool's favour (rounding does occur). *)
Example C11_case : exists a w', reachable (before 1) /\ exec (before 1) (OSwap a) = Ok w'
  /\ (let c := w_config (before 1) in
      quote_area (c_start c) (curve_points c) (p_price (w_pool w'))
      - quote_area (c_start c) (curve_points c) (p_price (w_pool (before 1)))
      <? (p_quote (w_pool w') - p_quote (w_pool (before 1))) * 2 ^ 128) = true.
Proof. apply (swap_case_meets 1 (fun w a w' => _)). vm_compute. reflexivity. Qed.

Print Assumptions C01_swap_conserves_tokens.
Print Assumptions C02_exact_in.
Print Assumptions C03_exact_out.
Print Assumptions C04_outside_limiter.
Print Assumptions C04_limiter_overcharge_refuted.
Print Assumptions C06_fee_split.
Print Assumptions C07_partner_creator_split.
Print Assumptions C08_fee_token.
Print Assumptions C10_price_direction.
Print Assumptions C11_rounding_favours_pool.
