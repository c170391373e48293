(** * Proof library: inversion of the result monad, division lemmas. *)
From Coq Require Import ZArith List Bool Lia ZifyBool.
From Verif Require Import Base MathModel.
Import ListNotations.
Open Scope Z_scope.

(** ** Inversion of checked operations *)

Lemma bind_ok {A B} (x : res A) (f : A -> res B) b :
  bind x f = Ok b -> exists a, x = Ok a /\ f a = Ok b.
Proof. destruct x as [a|e]; simpl; intros H; [exists a; auto | discriminate]. Qed.

Lemma require_ok b e u : require b e = Ok u -> b = true.
Proof. unfold require; destruct b; auto; discriminate. Qed.

Lemma require_true b e : b = true -> require b e = Ok tt.
Proof. intros ->; reflexivity. Qed.

Lemma ok_or_ok {A} (o : option A) e a : ok_or o e = Ok a -> o = Some a.
Proof. destruct o; simpl; intros H; inversion H; reflexivity. Qed.

Lemma sadd_ok m a b c : sadd m a b = Ok c -> c = a + b /\ a + b <= m.
Proof. unfold sadd; destruct (a + b <=? m) eqn:E; intros H; inversion H; lia. Qed.
Lemma ssub_ok a b c : ssub a b = Ok c -> c = a - b /\ b <= a.
Proof. unfold ssub; destruct (b <=? a) eqn:E; intros H; inversion H; lia. Qed.
Lemma smul_ok m a b c : smul m a b = Ok c -> c = a * b /\ a * b <= m.
Proof. unfold smul; destruct (a * b <=? m) eqn:E; intros H; inversion H; lia. Qed.
Lemma sdiv_ok a b c : sdiv a b = Ok c -> c = a / b /\ b <> 0.
Proof. unfold sdiv; destruct (b =? 0) eqn:E; intros H; inversion H; lia. Qed.
Lemma psub_ok a b c : psub a b = Ok c -> c = a - b /\ b <= a.
Proof. unfold psub; destruct (b <=? a) eqn:E; intros H; inversion H; lia. Qed.
Lemma scast_ok m a c : scast m a = Ok c -> c = a /\ a <= m.
Proof. unfold scast; destruct (a <=? m) eqn:E; intros H; inversion H; lia. Qed.

Lemma sadd_intro m a b : a + b <= m -> sadd m a b = Ok (a + b).
Proof. unfold sadd; intros; destruct (a + b <=? m) eqn:E; [auto | lia]. Qed.
Lemma ssub_intro a b : b <= a -> ssub a b = Ok (a - b).
Proof. unfold ssub; intros; destruct (b <=? a) eqn:E; [auto | lia]. Qed.
Lemma smul_intro m a b : a * b <= m -> smul m a b = Ok (a * b).
Proof. unfold smul; intros; destruct (a * b <=? m) eqn:E; [auto | lia]. Qed.
Lemma sdiv_intro a b : b <> 0 -> sdiv a b = Ok (a / b).
Proof. unfold sdiv; intros; destruct (b =? 0) eqn:E; [lia | auto]. Qed.
Lemma psub_intro a b : b <= a -> psub a b = Ok (a - b).
Proof. unfold psub; intros; destruct (b <=? a) eqn:E; [auto | lia]. Qed.
Lemma scast_intro m a : a <= m -> scast m a = Ok a.
Proof. unfold scast; intros; destruct (a <=? m) eqn:E; [auto | lia]. Qed.

Lemma Ok_inj {A} (a b : A) : Ok a = Ok b -> a = b.
Proof. intros H; inversion H; reflexivity. Qed.
Lemma Some_inj {A} (a b : A) : Some a = Some b -> a = b.
Proof. intros H; inversion H; reflexivity. Qed.

Lemma pair_inj {A B} (a a' : A) (b b' : B) : (a, b) = (a', b') -> a = a' /\ b = b'.
Proof. intros H; inversion H; auto. Qed.

Ltac sub1 H := try (match type of H with
                    | ?x = _ => is_var x; subst x
                    | _ = ?x => is_var x; subst x
                    end).

(** One inversion step on any hypothesis that says that a computation succeeded. *)
Ltac minv1 :=
  match goal with
  | H : Err _ = Ok _ |- _ => discriminate H
  | H : None = Some _ |- _ => discriminate H
  | H : Ok _ = Ok _ |- _ => apply Ok_inj in H; sub1 H
  | H : Some _ = Some _ |- _ => apply Some_inj in H; sub1 H
  | H : bind _ _ = Ok _ |- _ =>
      let v := fresh "v" in let E := fresh "E" in
      apply bind_ok in H; destruct H as (v & E & H); cbv beta in H
  | H : require _ _ = Ok _ |- _ => apply require_ok in H
  | H : ok_or _ _ = Ok _ |- _ => apply ok_or_ok in H
  | H : sadd _ _ _ = Ok _ |- _ =>
      let L := fresh "L" in apply sadd_ok in H; destruct H as [H L]; sub1 H
  | H : ssub _ _ = Ok _ |- _ =>
      let L := fresh "L" in apply ssub_ok in H; destruct H as [H L]; sub1 H
  | H : smul _ _ _ = Ok _ |- _ =>
      let L := fresh "L" in apply smul_ok in H; destruct H as [H L]; sub1 H
  | H : sdiv _ _ = Ok _ |- _ =>
      let L := fresh "L" in apply sdiv_ok in H; destruct H as [H L]; sub1 H
  | H : psub _ _ = Ok _ |- _ =>
      let L := fresh "L" in apply psub_ok in H; destruct H as [H L]; sub1 H
  | H : scast _ _ = Ok _ |- _ =>
      let L := fresh "L" in apply scast_ok in H; destruct H as [H L]; sub1 H
  | v : unit |- _ => destruct v
  end.
Ltac minv := repeat minv1.

(** Also split on conditionals and pattern matches in successful computations. *)
Ltac minvc1 :=
  first [ minv1
        | match goal with
          | H : (if ?b then _ else _) = Ok _ |- _ =>
              let E := fresh "C" in destruct b eqn:E
          | H : (if ?b then _ else _) = Some _ |- _ =>
              let E := fresh "C" in destruct b eqn:E
          | H : (let '(_, _) := ?x in _) = Ok _ |- _ =>
              let E := fresh "P" in destruct x eqn:E
          | H : (_, _) = (_, _) |- _ => injection H; clear H; intros; subst
          end ].
Ltac minvc := repeat minvc1.

(** ** Constants *)
Lemma Q128_pos : 0 < Q128. Proof. reflexivity. Qed.
Lemma Q64_pos : 0 < Q64. Proof. reflexivity. Qed.
Lemma Q64_sq : Q64 * Q64 = Q128. Proof. reflexivity. Qed.

(** ** Floor and ceiling division *)
Lemma div_ge a b c : 0 < b -> (c <= a / b <-> c * b <= a).
Proof.
  intros Hb; split; intros H.
  - pose proof (Z.mul_div_le a b Hb). nia.
  - apply Z.div_le_lower_bound; lia.
Qed.

Lemma div_lt a b c : 0 < b -> (a / b < c <-> a < c * b).
Proof. intros Hb. pose proof (div_ge a b c Hb). lia. Qed.

Lemma cdiv_le a b c : 0 < b -> (cdiv a b <= c <-> a <= c * b).
Proof.
  intros Hb. unfold cdiv.
  assert (H : (a + b - 1) / b < c + 1 <-> a + b - 1 < (c + 1) * b) by (apply div_lt; auto).
  split; intros; nia.
Qed.

Lemma cdiv_gt a b c : 0 < b -> (c < cdiv a b <-> c * b < a).
Proof. intros Hb. pose proof (cdiv_le a b c Hb). lia. Qed.

Lemma cdiv_ub a b : 0 < b -> a <= cdiv a b * b.
Proof. intros. apply cdiv_le; auto. lia. Qed.

Lemma div_lb a b : 0 < b -> (a / b) * b <= a.
Proof. intros. apply div_ge; auto. lia. Qed.

Lemma div_nonneg a b : 0 <= a -> 0 < b -> 0 <= a / b.
Proof. intros; apply Z.div_pos; auto. Qed.

Lemma cdiv_nonneg a b : 0 <= a -> 0 < b -> 0 <= cdiv a b.
Proof. intros; unfold cdiv; apply Z.div_pos; lia. Qed.

Lemma div_le_cdiv a b : 0 < b -> a / b <= cdiv a b.
Proof. intros. unfold cdiv. apply Z.div_le_mono; lia. Qed.

Lemma cdiv_lt_div1 a b : 0 < b -> cdiv a b <= a / b + 1.
Proof. intros. apply cdiv_le; auto. pose proof (Z.mod_pos_bound a b H). pose proof (Z.div_mod a b). nia. Qed.

Lemma cdiv_mono a a' b : 0 < b -> a <= a' -> cdiv a b <= cdiv a' b.
Proof. intros. unfold cdiv. apply Z.div_le_mono; lia. Qed.

Lemma cdiv_0 b : 0 < b -> cdiv 0 b = 0.
Proof. intros. unfold cdiv. apply Z.div_small. lia. Qed.

(** ceil (a + b) <= ceil a + ceil b, and ceil (a+b) >= ceil a + floor b *)
Lemma cdiv_add_le a b d : 0 < d -> cdiv (a + b) d <= cdiv a d + cdiv b d.
Proof. intros. apply cdiv_le; auto. pose proof (cdiv_ub a d H). pose proof (cdiv_ub b d H). nia. Qed.

Lemma cdiv_add_ge a b d : 0 < d -> cdiv a d + b / d <= cdiv (a + b) d.
Proof.
  intros. assert (cdiv a d <= cdiv (a + b) d - b / d); [|lia].
  apply cdiv_le; auto. pose proof (cdiv_ub (a + b) d H). pose proof (div_lb b d H). nia.
Qed.

Lemma divr_range r a b : 0 < b -> a / b <= divr r a b <= a / b + 1.
Proof.
  intros. destruct r; simpl.
  - split; [apply div_le_cdiv | apply cdiv_lt_div1]; auto.
  - lia.
Qed.

(** ** safe_mul_div casts *)
Lemma mul_div_cast_down m x y d r :
  safe_mul_div_cast_u64 m x y d Down = Ok r -> r = x * y / d /\ d <> 0 /\ r <= m.
Proof. unfold safe_mul_div_cast_u64; intros H; minv. auto. Qed.

Lemma mul_div_cast_up m x y d r :
  safe_mul_div_cast_u64 m x y d Up = Ok r -> r = cdiv (x * y) d /\ d <> 0 /\ r <= m.
Proof. unfold safe_mul_div_cast_u64; intros H; minv. unfold cdiv. auto. Qed.

Lemma mul_div_cast128_down x y d r :
  safe_mul_div_cast_u128 x y d Down = Ok r -> r = x * y / d /\ d <> 0 /\ r <= U128_MAX.
Proof. unfold safe_mul_div_cast_u128; intros H; minv. auto. Qed.

Lemma mul_div_cast128_up x y d r :
  safe_mul_div_cast_u128 x y d Up = Ok r -> r = cdiv (x * y) d /\ d <> 0 /\ r <= U128_MAX.
Proof. unfold safe_mul_div_cast_u128; intros H; minv. unfold cdiv. auto. Qed.

Lemma mul_div_cast_down_intro m x y d :
  x * y <= U128_MAX -> 0 < d -> x * y / d <= m ->
  safe_mul_div_cast_u64 m x y d Down = Ok (x * y / d).
Proof.
  intros. unfold safe_mul_div_cast_u64. rewrite smul_intro by auto. simpl.
  rewrite sdiv_intro by lia. simpl. apply scast_intro; auto.
Qed.

Lemma mul_div_cast_up_intro m x y d :
  0 <= x * y -> x * y + d <= U128_MAX -> 0 < d -> cdiv (x * y) d <= m ->
  safe_mul_div_cast_u64 m x y d Up = Ok (cdiv (x * y) d).
Proof.
  intros. unfold safe_mul_div_cast_u64. rewrite smul_intro by lia. simpl.
  rewrite sadd_intro by lia. simpl. rewrite ssub_intro by lia. simpl.
  rewrite sdiv_intro by lia. simpl. apply scast_intro. auto.
Qed.

Lemma mul_div_cast128_down_intro x y d :
  x * y <= U256_MAX -> 0 < d -> x * y / d <= U128_MAX ->
  safe_mul_div_cast_u128 x y d Down = Ok (x * y / d).
Proof.
  intros. unfold safe_mul_div_cast_u128. rewrite smul_intro by auto. simpl.
  rewrite sdiv_intro by lia. simpl. apply scast_intro; auto.
Qed.

Lemma mul_div_u256_ok x y d r q :
  mul_div_u256 x y d r = Some q -> q = divr r (x * y) d /\ d <> 0 /\ q <= U256_MAX.
Proof.
  unfold mul_div_u256. destruct (d =? 0) eqn:E; [discriminate|].
  destruct (divr r (x * y) d <=? U256_MAX) eqn:E2; intros H; inversion H. lia.
Qed.
