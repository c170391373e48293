(** * The concrete pools are reachable. *)
From Coq Require Import ZArith List Bool Lia.
From Verif Require Import Base MathModel CurveModel FeeModel ConfigModel PoolModel TxModel
  SystemModel Spec Fixtures.
Import ListNotations.
Open Scope Z_scope.
#[local] Arguments Z.pow : simpl never.

Ltac typed :=
  constructor; simpl;
  unfold base_fee_typed, dyn_typed, locked_vesting_typed, lvparams_typed, u8ok, u16ok, u32ok,
    u64ok, u128ok; simpl;
  repeat match goal with
  | |- _ /\ _ => split
  | |- Forall _ _ => constructor
  | |- True => exact I
  | |- _ <= _ => vm_compute; congruence
  end.

Lemma typedA : params_typed fx_paramsA. Proof. typed. Qed.
Lemma typedB : params_typed fx_paramsB. Proof. typed. Qed.
Lemma typedC : params_typed fx_paramsC. Proof. typed. Qed.

Lemma createdA : created cfgA.
Proof. exists fx_paramsA, true, true, 1700000000, 11, 22, 33. split; [apply typedA|].
  split; [unfold u64ok; vm_compute; split; congruence|apply cfgA_created]. Qed.
Lemma createdB : created cfgB.
Proof. exists fx_paramsB, true, true, 1700000000, 11, 22, 33. split; [apply typedB|].
  split; [unfold u64ok; vm_compute; split; congruence|apply cfgB_created]. Qed.
Lemma createdC : created cfgC.
Proof. exists fx_paramsC, true, true, 1700000000, 11, 22, 33. split; [apply typedC|].
  split; [unfold u64ok; vm_compute; split; congruence|apply cfgC_created]. Qed.

Lemma initialA : initial wA.
Proof. exists cfgA, 77, 44, 55, 0, 1000, 1700000000, [99], []. split; [apply createdA|].
  split; [unfold u64ok; vm_compute; split; congruence|].
  split; [unfold u64ok; vm_compute; split; congruence|apply wA_created]. Qed.
Lemma initialB : initial wB.
Proof. exists cfgB, 77, 44, 55, 0, 1000, 1700000000, [99], []. split; [apply createdB|].
  split; [unfold u64ok; vm_compute; split; congruence|].
  split; [unfold u64ok; vm_compute; split; congruence|apply wB_created]. Qed.
Lemma initialC : initial wC.
Proof. exists cfgC, 77, 44, 55, 1, 1000, 1700000000, [99], []. split; [apply createdC|].
  split; [unfold u64ok; vm_compute; split; congruence|].
  split; [unfold u64ok; vm_compute; split; congruence|apply wC_created]. Qed.

Lemma reachA ops : reachable (run wA ops).
Proof. exists wA, ops. split; [apply initialA|reflexivity]. Qed.
Lemma reachB ops : reachable (run wB ops).
Proof. exists wB, ops. split; [apply initialB|reflexivity]. Qed.
Lemma reachC ops : reachable (run wC ops).
Proof. exists wC, ops. split; [apply initialC|reflexivity]. Qed.

Lemma typedD : params_typed fx_paramsD. Proof. typed. Qed.
Lemma createdD : created cfgD.
Proof. exists fx_paramsD, true, true, 1700000000, 11, 22, 33. split; [apply typedD|].
  split; [unfold u64ok; vm_compute; split; congruence|apply cfgD_created]. Qed.
Lemma initialD : initial wD.
Proof. exists cfgD, 77, 44, 55, 1, 1000, 1700000000, [99], []. split; [apply createdD|].
  split; [unfold u64ok; vm_compute; split; congruence|].
  split; [unfold u64ok; vm_compute; split; congruence|apply wD_created]. Qed.
Lemma reachD ops : reachable (run wD ops).
Proof. exists wD, ops. split; [apply initialD|reflexivity]. Qed.
