(** * The invariant is preserved by withdrawals, creation fees, locker and metadata. *)
From Coq Require Import ZArith QArith List Bool Lia ZifyBool Lqa.
From Verif Require Import Base MathModel CurveModel FeeModel ConfigModel PoolModel TxModel
  SystemModel Spec Lib CurveProofs CurveLoops Potential CalcProofs ConfigProofs FeeProofs
  SwapProofs InvProofs.
Import ListNotations.
Open Scope Z_scope.
#[local] Arguments Z.pow : simpl never.
#[local] Arguments Z.testbit : simpl never.
#[local] Arguments unless : simpl never.

Ltac bits :=
  repeat match goal with
  | |- context [Z.testbit (Zpos ?a) ?b] =>
      let v := eval vm_compute in (Z.testbit (Zpos a) b) in change (Z.testbit (Zpos a) b) with v
  | |- context [Z.testbit 0 ?b] => change (Z.testbit 0 b) with false
  | |- context [bit_flip ?a ?b] =>
      let v := eval vm_compute in (bit_flip a b) in change (bit_flip a b) with v
  | H : context [Z.testbit (Zpos ?a) ?b] |- _ =>
      let v := eval vm_compute in (Z.testbit (Zpos a) b) in change (Z.testbit (Zpos a) b) with v in H
  | H : context [Z.testbit 0 ?b] |- _ => change (Z.testbit 0 b) with false in H
  end; unfold unless in *.

Lemma inv_partner_surplus w s t w' : Inv w -> withdraw_partner_surplus w s t = Ok w' -> Inv w'.
Proof.
  intros I H. pose proof (created_cfg_ok _ (iv_created _ I)) as K.
  unfold withdraw_partner_surplus in H. cbv zeta in H. minv.
  match goal with X : get_partner_surplus _ _ _ = Ok _ |- _ => apply partner_surplus_eq in X; auto;
    [subst | unfold is_curve_complete in *; lia] end.
  ivd I. unfold is_curve_complete in *. unf. minv. constructor; unf; simpl in *; auto; try lia.
  assert (P : p_progress (w_pool w) =? 0 = false) by lia. rewrite P in *.
  assert (S : p_partner_surplus (w_pool w) = 0) by lia. rewrite S in iv8.
  change (unless true ?x) with 0. change (unless (0 =? 1) ?x) with x in iv8. lia.
Qed.

Lemma inv_creator_surplus w s t w' : Inv w -> withdraw_creator_surplus w s t = Ok w' -> Inv w'.
Proof.
  intros I H. pose proof (created_cfg_ok _ (iv_created _ I)) as K.
  unfold withdraw_creator_surplus in H. cbv zeta in H. minv.
  match goal with X : get_creator_surplus _ _ _ = Ok _ |- _ => apply creator_surplus_eq in X; auto;
    [subst | unfold is_curve_complete in *; lia] end.
  ivd I. unfold is_curve_complete in *. unf. minv. constructor; unf; simpl in *; auto; try lia.
  assert (P : p_progress (w_pool w) =? 0 = false) by lia. rewrite P in *.
  assert (S : p_creator_surplus (w_pool w) = 0) by lia. rewrite S in iv8.
  change (unless true ?x) with 0. change (unless (0 =? 1) ?x) with x in iv8. lia.
Qed.

Lemma inv_migration_fee w s t f w' : Inv w -> withdraw_migration_fee w s t f = Ok w' -> Inv w'.
Proof.
  intros I H. pose proof (created_cfg_ok _ (iv_created _ I)) as K.
  unfold withdraw_migration_fee in H. cbv zeta in H.
  apply bind_ok in H. destruct H as (u & C & H). apply require_ok in C.
  unfold is_curve_complete in C.
  apply bind_ok in H. destruct H as ([pf cf] & D & H).
  apply mig_fee_dist_eq in D; auto. destruct D as (-> & ->).
  destruct (f =? 0) eqn:F0; [|destruct (f =? 1) eqn:F1; [|discriminate]].
  - apply bind_ok in H. destruct H as (u1 & _ & H).
    apply bind_ok in H. destruct H as (u2 & B & H). apply require_ok in B.
    ivd I. unf. minv. constructor; unf; simpl in *; auto; try lia.
    + assert (P : p_progress (w_pool w) =? 0 = false) by lia. rewrite P in *.
      destruct iv13 as [X|[X|[X|X]]]; rewrite X in *; vm_compute in B; try discriminate B; bits; lia.
    + destruct iv13 as [X|[X|[X|X]]]; rewrite X in *; vm_compute in B; try discriminate B; bits; auto.
  - apply bind_ok in H. destruct H as (u1 & _ & H).
    apply bind_ok in H. destruct H as (u2 & B & H). apply require_ok in B.
    ivd I. unf. minv. constructor; unf; simpl in *; auto; try lia.
    + assert (P : p_progress (w_pool w) =? 0 = false) by lia. rewrite P in *.
      destruct iv13 as [X|[X|[X|X]]]; rewrite X in *; vm_compute in B; try discriminate B; bits; lia.
    + destruct iv13 as [X|[X|[X|X]]]; rewrite X in *; vm_compute in B; try discriminate B; bits; auto.
Qed.

Lemma inv_leftover w w' : Inv w -> withdraw_leftover w = Ok w' -> Inv w'.
Proof.
  intros I H. unfold withdraw_leftover in H. cbv zeta in H. minv.
  match goal with X : get_protocol_and_trading_base_fee _ = Ok _ |- _ => apply fees_sum_eq in X; subst end.
  ivd I. unfold CreatedPool in *. unf. minv. constructor; unf; simpl in *; auto; try lia.
  assert (P : p_progress (w_pool w) = 3) by lia. rewrite P. simpl. lia.
Qed.

Lemma inv_partner_cf w s t w' : Inv w -> claim_partner_creation_fee w s t = Ok w' -> Inv w'.
Proof.
  intros I H. unfold claim_partner_creation_fee in H. cbv zeta in H.
  apply bind_ok in H. destruct H as (u & _ & H).
  apply bind_ok in H. destruct H as ([a b] & S & H). apply creation_split_eq in S.
  destruct S as (-> & ->). simpl snd in H.
  apply bind_ok in H. destruct H as (u1 & _ & H).
  apply bind_ok in H. destruct H as (u2 & B & H). apply require_ok in B.
  ivd I. unf. minv. constructor; unf; simpl in *; auto; try lia.
  - destruct iv14 as [X|[X|[X|X]]]; rewrite X in *; vm_compute in B; try discriminate B; bits; lia.
  - destruct iv14 as [X|[X|[X|X]]]; rewrite X in *; vm_compute in B; try discriminate B; bits; auto.
Qed.

Lemma inv_protocol_cf w s w' : Inv w -> claim_protocol_creation_fee w s = Ok w' -> Inv w'.
Proof.
  intros I H. unfold claim_protocol_creation_fee in H. cbv zeta in H.
  apply bind_ok in H. destruct H as (u & _ & H).
  pose proof (created_cfg_ok _ (iv_created _ I)) as K.
  assert (NN : 0 <= creation_fee_protocol (w_config w)).
  { apply div_nonneg; pose proof (ok_pcf _ K); lia. }
  apply bind_ok in H. destruct H as ([p1 fee] & R & H).
  assert (LG : p_legacy_bits p1 = 0).
  { destruct (bit_unset _ _) in R; minv; inversion R; subst; apply (iv_legacy _ I). }
  rewrite LG in H. simpl in H.
  destruct (bit_unset (p_creation_bits (w_pool w)) PROTOCOL_CREATION_FEE_MASK) eqn:B.
  - apply bind_ok in R. destruct R as ([a b] & S & R). apply creation_split_eq in S.
    destruct S as (-> & ->). apply Ok_inj in R. apply pair_inj in R. destruct R as (<- & <-).
    simpl in H.
    ivd I. destruct (0 <? creation_fee_protocol (w_config w)) eqn:Z0.
    + unf. minv. constructor; unf; simpl in *; auto; try lia.
      * destruct iv14 as [X|[X|[X|X]]]; rewrite X in *; vm_compute in B; try discriminate B; bits; lia.
      * destruct iv14 as [X|[X|[X|X]]]; rewrite X in *; vm_compute in B; try discriminate B; bits; auto.
    + unf. minv. constructor; unf; simpl in *; auto; try lia.
      * destruct iv14 as [X|[X|[X|X]]]; rewrite X in *; vm_compute in B; try discriminate B; bits; lia.
      * destruct iv14 as [X|[X|[X|X]]]; rewrite X in *; vm_compute in B; try discriminate B; bits; auto.
  - apply Ok_inj in R. apply pair_inj in R. destruct R as (<- & <-). simpl in H. minv.
    rewrite set_pool_self; auto.
Qed.

Lemma inv_transfer_creator w s n w' : Inv w -> transfer_creator w s n = Ok w' -> Inv w'.
Proof.
  intros I H. unfold transfer_creator in H. cbv zeta in H.
  apply bind_ok in H. destruct H as (u & _ & H).
  apply bind_ok in H. destruct H as (u1 & _ & H).
  apply bind_ok in H. destruct H as (u2 & _ & H). apply Ok_inj in H. subst w'.
  ivd I. constructor; unf; simpl in *; auto.
Qed.

Lemma inv_locker w w' : Inv w -> create_locker w = Ok w' -> Inv w'.
Proof.
  intros I H. unfold create_locker in H. cbv zeta in H.
  apply bind_ok in H. destruct H as (u & P & H). apply require_ok in P.
  apply bind_ok in H. destruct H as (t & T & H). apply lv_total_eq in T.
  unfold PostBondingCurve in P. assert (P1 : p_progress (w_pool w) = 1) by lia.
  ivd I. unf. rewrite P1 in *. minv. constructor; unf; unfold LockedVesting in *; simpl in *; auto; try lia.
  - destruct (w_meta w) as [m|]; auto.
    destruct iv20 as (q1 & q2 & q3 & q4 & q5 & q6 & q7 & q8 & q9).
    repeat (split; [assumption|]). intros _. apply q9. lia.
Qed.

Lemma inv_metadata w w' : Inv w -> create_v1_metadata w = Ok w' -> Inv w'.
Proof.
  intros I H. unfold create_v1_metadata in H. minv.
  assert (M : w_meta w = None) by (destruct (w_meta w); [discriminate|auto]).
  ivd I. unf. rewrite M in *.
  constructor; unf; simpl in *; auto; try lia.
  all: try (repeat split; auto; lia).
Qed.
