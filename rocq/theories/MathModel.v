(** * Model of src/math/*.rs *)
From Coq Require Import ZArith List Bool.
From Verif Require Import Base.
Import ListNotations.
Open Scope Z_scope.

(** math/u128x128_math.rs:36-42 [mul_shr]: (x*y) >> offset in U256, cast to u128.
    x, y : u128, so the U256 product cannot overflow. *)
Definition mul_shr (x y offset : Z) : option Z :=
  let q := (x * y) / 2 ^ offset in
  if q <=? U128_MAX then Some q else None.

(** math/u128x128_math.rs:46-59 [shl_div]. U256::checked_shl fails when bits are lost. *)
Definition shl_div (x y offset : Z) (r : rounding) : option Z :=
  if y =? 0 then None
  else if U256_MAX <? x * 2 ^ offset then None
  else let q := divr r (x * 2 ^ offset) y in
       if q <=? U128_MAX then Some q else None.

(** math/u128x128_math.rs:63-71 [shl_div_256]. *)
Definition shl_div_256 (x y offset : Z) : option Z :=
  if y =? 0 then None
  else if U256_MAX <? x * 2 ^ offset then None
  else Some (x * 2 ^ offset / y).

(** math/u128x128_math.rs:74-97 [mul_div_u256]. The U512 product of two U256 values
    cannot overflow, so that check is omitted. *)
Definition mul_div_u256 (x y d : Z) (r : rounding) : option Z :=
  if d =? 0 then None
  else let q := divr r (x * y) d in
       if q <=? U256_MAX then Some q else None.

(** math/utils_math.rs:13-16 [safe_mul_shr_cast] with target type bound [m]. *)
Definition safe_mul_shr_cast (m x y offset : Z) : res Z :=
  do q <- ok_or (mul_shr x y offset) EMathOverflow ;; scast m q.

(** math/utils_math.rs:19-37 [safe_mul_div_cast_u64] with target type bound [m]. *)
Definition safe_mul_div_cast_u64 (m x y d : Z) (r : rounding) : res Z :=
  do prod <- smul U128_MAX x y ;;
  do result <- match r with
               | Up => do a <- sadd U128_MAX prod d ;;
                       do b <- ssub a 1 ;;
                       sdiv b d
               | Down => sdiv prod d
               end ;;
  scast m result.

(** math/utils_math.rs:40-58 [safe_mul_div_cast_u128]. *)
Definition safe_mul_div_cast_u128 (x y d : Z) (r : rounding) : res Z :=
  do prod <- smul U256_MAX x y ;;
  do result <- match r with
               | Up => do a <- sadd U256_MAX prod d ;;
                       do b <- ssub a 1 ;;
                       sdiv b d
               | Down => sdiv prod d
               end ;;
  scast U128_MAX result.

(** math/utils_math.rs:61-69 [safe_shl_div_cast] with target type bound [m]. *)
Definition safe_shl_div_cast (m x y offset : Z) (r : rounding) : res Z :=
  do q <- ok_or (shl_div x y offset r) EMathOverflow ;; scast m q.

(** math/utils_math.rs:85-94: the [while bit != 0] loop of [sqrt_u256]. [fuel] bounds the
    number of iterations; running out of fuel yields [None] (proved impossible).
    ruint's [checked_shr] yields [None] when a set bit is shifted out: [Z.odd result]. *)
Fixpoint sqrt_loop (fuel : nat) (bit n result : Z) : option Z :=
  if bit =? 0 then Some result
  else match fuel with
       | O => None
       | S fuel' =>
         if U256_MAX <? result + bit then None
         else if Z.odd result then None
         else if result + bit <=? n
              then if U256_MAX <? result / 2 + bit then None
                   else sqrt_loop fuel' (bit / 4) (n - (result + bit)) (result / 2 + bit)
              else sqrt_loop fuel' (bit / 4) n (result / 2)
       end.

(** math/utils_math.rs:74-96 [sqrt_u256]. [shift = (255 - leading_zeros) & !1] is the
    largest even number not above [log2]; [log2 r = 255 - leading_zeros r]. *)
Definition sqrt_u256 (radicand : Z) : option Z :=
  if radicand =? 0 then Some 0
  else let shift := 2 * (Z.log2 radicand / 2) in
       sqrt_loop 130 (2 ^ shift) radicand 0.

(** constants.rs: ONE_Q64 = 1 << 64; math/fee_math.rs:9 MAX_EXPONENTIAL. *)
Definition ONE_Q64 : Z := Q64.
Definition MAX_EXPONENTIAL : Z := 524288.

(** One multiplication of [pow]: checked u128 product, then >> 64. *)
Definition mulq (a b : Z) : option Z :=
  if a * b <=? U128_MAX then Some (a * b / Q64) else None.

(** math/fee_math.rs:91-93 and its 18 repetitions: conditional multiplication for bit [i]. *)
Definition pow_step (exp i sq result : Z) : option Z :=
  if Z.testbit exp i then mulq result sq else Some result.

(** math/fee_math.rs:95-189: for bits i, i+1, ... ([n] of them): square, then multiply
    if the bit is set. The unrolled Rust code is this loop with n = 18, starting at bit 1. *)
Fixpoint pow_bits (n : nat) (i exp sq result : Z) : option Z :=
  match n with
  | O => Some result
  | S n' =>
    match mulq sq sq with
    | None => None
    | Some sq' =>
      match pow_step exp i sq' result with
      | None => None
      | Some result' => pow_bits n' (i + 1) exp sq' result'
      end
    end
  end.

(** math/fee_math.rs:34-201 [pow]. [exp] ranges over i32. *)
Definition pow (base exp : Z) : option Z :=
  if exp =? -2147483648 then None
  else if exp =? 0 then Some Q64
  else
    let invert0 := exp <? 0 in
    let e := Z.abs exp in
    if MAX_EXPONENTIAL <=? e then None
    else
      let '(sq, invert) :=
        if ONE_Q64 <=? base then (U128_MAX / base, negb invert0) else (base, invert0) in
      match pow_step e 0 sq ONE_Q64 with
      | None => None
      | Some r0 =>
        match pow_bits 18 1 e sq r0 with
        | None => None
        | Some r =>
          if r =? 0 then None
          else if invert then Some (U128_MAX / r) else Some r
        end
      end.

(** constants.rs: BASIS_POINT_MAX / MAX_BASIS_POINT. *)
Definition MAX_BASIS_POINT : Z := 10000.

(** math/fee_math.rs:13-32 [get_fee_in_period]. u128 [safe_shl(64)] of a u64 never loses
    bits, so it is plain multiplication. *)
Definition get_fee_in_period (cliff reduction period : Z) : res Z :=
  do bps <- sdiv (reduction * Q64) MAX_BASIS_POINT ;;
  do base <- ssub ONE_Q64 bps ;;
  do result <- ok_or (pow base period) EMathOverflow ;;
  do prod <- smul U128_MAX result cliff ;;
  scast U64_MAX (prod / Q64).
