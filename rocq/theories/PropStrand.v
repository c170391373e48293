(** * Nothing is stranded: C69.

    Solvency (C17) says that the vaults hold at least what is owed. Here the books are balanced
    exactly: whatever is in a vault beyond what somebody can still claim was sent there for nothing
    by somebody (or, for the quote token, was set aside for the migrated pool and not taken by it). *)
From Coq Require Import ZArith QArith List Bool Lia ZifyBool Lqa.
From Verif Require Import Base MathModel CurveModel FeeModel ConfigModel PoolModel TxModel
  SystemModel Spec SpecHist Lib CurveProofs CurveLoops Potential CalcProofs ConfigProofs FeeProofs
  SwapProofs InvProofs InvOps InvReach Effects Bounds Frame Only PropSafe PropAccess Fixtures FixturesReach.
Import ListNotations.
Open Scope Z_scope.
#[local] Arguments Z.pow : simpl never.
#[local] Arguments Z.testbit : simpl never.

(** ** Specification *)

(** Gifts: what an instruction other than a swap sends to the pool. *)
Definition quote_given (w : world) (o : op) : Z :=
  match o with ODonateQuote _ a => if is_ok (exec w o) then a else 0 | _ => 0 end.
Definition base_given (w : world) (o : op) : Z :=
  match o with ODonateBase _ a => if is_ok (exec w o) then a else 0 | _ => 0 end.
Definition sol_given (w : world) (o : op) : Z :=
  match o with ODonateSol _ a => if is_ok (exec w o) then a else 0 | _ => 0 end.

(** The quote tokens set aside for the migrated pool, less the protocol's cut of them and less what
    was sent: what the migrated pool did not take. *)
Definition quote_untaken (w : world) (o : op) : Z :=
  match o with
  | OMigrateV1 _ _ | OMigrateV2 _ _ =>
    if is_ok (exec w o)
    then c_threshold (w_config w) - migration_fee_total (w_config w)
         - p_mig_quote_fee (w_pool (step w o)) - paid TQuote w o
    else 0
  | _ => 0
  end.

(** Base tokens that belong to the curve until migration: the pool's reserve, less the vested tokens
    once they are in the locker. *)
Definition base_books (w : world) : Z :=
  p_partner_base (w_pool w) + p_creator_base (w_pool w) + p_protocol_base (w_pool w)
  + p_base (w_pool w)
  - (if p_progress (w_pool w) =? 2 then vesting_total (w_config w) else 0).

(** The base tokens have been dealt with: migrated and, for a fixed supply, the leftover withdrawn. *)
Definition settled (w : world) : bool :=
  (p_progress (w_pool w) =? 3) && (negb (is_fixed_supply (w_config w)) || (p_leftover (w_pool w) =? 1)).
Definition base_given_late (w : world) (o : op) : Z := if settled w then base_given w o else 0.

(** ** One instruction *)
Record books (w w' : world) (gq uq gb gs : Z) : Prop := {
  bk_quote : w_qvault w' - quote_owed w' = w_qvault w - quote_owed w + gq + uq;
  bk_sol : w_lamports w' - lamports_owed w' = w_lamports w - lamports_owed w + gs;
  bk_base : p_progress (w_pool w') <> 3 ->
     p_progress (w_pool w) <> 3 /\ w_bvault w' - base_books w' = w_bvault w - base_books w + gb;
  bk_late : settled w = true ->
     settled w' = true /\ w_bvault w' - base_owed w' = w_bvault w - base_owed w + gb;
  bk_settle : settled w = false -> settled w' = true -> w_bvault w' = base_owed w';
  bk_lp : w_lp w = lp_owed w -> w_lp w' = lp_owed w'
}.

Ltac unb := unfold settled, base_books in *; unf.
Ltac bks := constructor; unb; simpl in *; intros; auto; try lia; try congruence.

Lemma bk_partner w s t b q w' : Inv w -> claim_partner_fee w s t b q = Ok w' -> books w w' 0 0 0 0.
Proof.
  intros I H. unfold claim_partner_fee, claim_partner_trading_fee in H.
  apply bind_ok in H. destruct H as (u & _ & H).
  apply bind_ok in H. destruct H as ([[p x] y] & R & H). minv. inversion R; subst; clear R.
  unb. minv. bks.
Qed.

Lemma bk_creator w s t b q w' : Inv w -> claim_creator_fee w s t b q = Ok w' -> books w w' 0 0 0 0.
Proof.
  intros I H. unfold claim_creator_fee, claim_creator_trading_fee in H.
  apply bind_ok in H. destruct H as (u & _ & H).
  apply bind_ok in H. destruct H as ([[p x] y] & R & H). minv. inversion R; subst; clear R.
  unb. minv. bks.
Qed.

Lemma bk_trans w w1 w2 : books w w1 0 0 0 0 -> books w1 w2 0 0 0 0 -> settled w1 = settled w ->
  (settled w = false -> settled w2 = false) -> books w w2 0 0 0 0.
Proof.
  intros [a b c d e f] [a' b' c' d' e' f'] S S2. constructor.
  - lia.
  - lia.
  - intros N. destruct (c' N) as (N1 & E). destruct (c N1). split; auto; lia.
  - intros T. destruct (d T) as (T1 & E). destruct (d' T1). split; auto; lia.
  - intros T T2. rewrite (S2 T) in T2. discriminate.
  - auto.
Qed.

Lemma bk_base_claim w a b l : Inv w ->
  0 <= a <= p_protocol_base (w_pool w) -> 0 <= b <= p_mig_base_fee (w_pool w) ->
  books w (after_base_claim w a b l) 0 0 0 0.
Proof.
  intros I A B. pose proof (iv_premig _ I) as PM. unfold after_base_claim. bks.
  split; [assumption|]. apply andb_true_iff in H. destruct H as (H & _). apply Z.eqb_eq in H.
  rewrite H. simpl. lia.
Qed.

Lemma bk_quote_claim w a b s l p' :
  Inv w -> 0 <= a <= p_protocol_quote (w_pool w) -> 0 <= b <= p_mig_quote_fee (w_pool w) ->
  ((p_protocol_surplus (w_pool w) = 0 /\ c_threshold (w_config w) <= p_quote (w_pool w)
        /\ s = surplus_protocol (w_config w) (p_quote (w_pool w))
        /\ p' = set_protocol_surplus (set_mig_quote_fee (set_protocol_quote (w_pool w)
                  (p_protocol_quote (w_pool w) - a)) (p_mig_quote_fee (w_pool w) - b)) 1)
       \/ ((p_protocol_surplus (w_pool w) <> 0 \/ p_quote (w_pool w) < c_threshold (w_config w))
           /\ s = 0
           /\ p' = set_mig_quote_fee (set_protocol_quote (w_pool w) (p_protocol_quote (w_pool w) - a))
                     (p_mig_quote_fee (w_pool w) - b))) ->
  books w (set_w_log (set_w_qvault (set_w_pool w p') (w_qvault w - (a + b + s))) l) 0 0 0 0.
Proof.
  intros I A B CS. pose proof (iv_complete _ I) as CO. pose proof (iv_premig _ I) as PM.
  destruct CS as [(S & T & -> & ->)|(_ & -> & ->)]; bks.
  - assert (P : p_progress (w_pool w) =? 0 = false) by lia.
    rewrite P in *. rewrite S. change (unless true ?x) with 0. change (unless (0 =? 1) ?x) with x.
    destruct (p_progress (w_pool w) =? 3) eqn:P3; lia.
  - destruct (p_progress (w_pool w) =? 0) eqn:P0; [lia|].
    destruct (p_progress (w_pool w) =? 3) eqn:P3; lia.
Qed.

Lemma bk_protocol w s b q w' : Inv w -> 0 <= b -> 0 <= q ->
  claim_protocol_fee w s b q = Ok w' -> books w w' 0 0 0 0.
Proof.
  intros I Hb Hq H. unfold claim_protocol_fee in H.
  apply bind_ok in H. destruct H as (u & _ & H).
  apply bind_ok in H. destruct H as ([p1 x] & R & H).
  pose proof (iv_nonneg _ I) as NN.
  apply claim_base_ok in R; try lia. destruct R as (a & b' & A & B & -> & _ & ->).
  apply bind_ok in H. destruct H as (w1 & W1 & H).
  assert (E1 : exists l, w1 = after_base_claim w a b' l).
  { unfold after_base_claim. destruct (0 <? a + b') eqn:Z0.
    - unfold pay_base, log in W1. minv. eexists. reflexivity.
    - minv. exists (w_log w). replace (a + b') with 0 by lia. rewrite Z.sub_0_r.
      destruct w; reflexivity. }
  destruct E1 as (l & ->). clear W1.
  pose proof (inv_base_claim w a b' l I A B) as I1.
  pose proof (bk_base_claim w a b' l I A B) as J1.
  apply bind_ok in H. destruct H as ([p2 y] & R2 & H).
  apply claim_quote_surplus_ok in R2; simpl; try lia.
  destruct R2 as (a2 & b2 & s2 & A2 & B2 & -> & _ & CASES).
  assert (NS : 0 <= s2).
  { destruct CASES as [(_ & T & -> & _)|(_ & -> & _)]; [|lia]. apply surplus_protocol_nonneg; auto. }
  pose proof (bk_quote_claim _ a2 b2 s2
    (if 0 <? a2 + b2 + s2 then l ++ [mkTransfer TQuote PPool PTreasury (a2 + b2 + s2)] else l) p2 I1 A2 B2 CASES) as J2.
  assert (J : books w (set_w_log (set_w_qvault (set_w_pool (after_base_claim w a b' l) p2)
        (w_qvault (after_base_claim w a b' l) - (a2 + b2 + s2)))
      (if 0 <? a2 + b2 + s2 then l ++ [mkTransfer TQuote PPool PTreasury (a2 + b2 + s2)] else l)) 0 0 0 0).
  { apply (bk_trans _ _ _ J1 J2); [reflexivity|].
    intros <-. destruct CASES as [(_ & _ & _ & ->)|(_ & _ & ->)]; reflexivity. }
  clear J1 J2.
  destruct (0 <? a2 + b2 + s2) eqn:Z2.
  - unfold pay_quote, log in H. minv. exact J.
  - minv. simpl in J. replace (a2 + b2 + s2) with 0 in J by lia. rewrite Z.sub_0_r in J.
    exact J.
Qed.

Lemma bk_zap w s m base al ok w' : Inv w -> 0 <= m ->
  zap_protocol_fee w s m base al ok = Ok w' -> books w w' 0 0 0 0.
Proof.
  intros I Hb H. unfold zap_protocol_fee in H.
  apply bind_ok in H. destruct H as (u & _ & H).
  apply bind_ok in H. destruct H as (u2 & _ & H).
  apply bind_ok in H. destruct H as ([p1 x] & R & H).
  apply bind_ok in H. destruct H as (u3 & _ & H).
  apply bind_ok in H. destruct H as (u4 & _ & H).
  pose proof (iv_nonneg _ I) as NN. destruct base.
  - apply claim_base_ok in R; try lia. destruct R as (a & b' & A & B & -> & _ & ->).
    unfold pay_base, log in H. minv. exact (bk_base_claim w a b' _ I A B).
  - apply claim_quote_surplus_ok in R; try lia.
    destruct R as (a2 & b2 & s2 & A2 & B2 & -> & _ & CASES).
    unfold pay_quote, log in H. minv. apply (bk_quote_claim w a2 b2 s2); auto.
Qed.

Lemma bk_partner_surplus w s t w' : Inv w -> withdraw_partner_surplus w s t = Ok w' ->
  books w w' 0 0 0 0.
Proof.
  intros I H. pose proof (created_cfg_ok _ (iv_created _ I)) as K.
  pose proof (iv_complete _ I) as CO. pose proof (iv_flags _ I) as FL.
  unfold withdraw_partner_surplus in H. cbv zeta in H. minv.
  match goal with X : get_partner_surplus _ _ _ = Ok _ |- _ => apply partner_surplus_eq in X; auto;
    [subst | unfold is_curve_complete in *; lia] end.
  unfold is_curve_complete in *. unb. minv. bks.
  assert (P : p_progress (w_pool w) =? 0 = false) by lia. rewrite P in *.
  assert (S : p_partner_surplus (w_pool w) = 0) by lia. rewrite S.
  change (unless true ?x) with 0. change (unless (0 =? 1) ?x) with x. lia.
Qed.

Lemma bk_creator_surplus w s t w' : Inv w -> withdraw_creator_surplus w s t = Ok w' ->
  books w w' 0 0 0 0.
Proof.
  intros I H. pose proof (created_cfg_ok _ (iv_created _ I)) as K.
  pose proof (iv_complete _ I) as CO. pose proof (iv_flags _ I) as FL.
  unfold withdraw_creator_surplus in H. cbv zeta in H. minv.
  match goal with X : get_creator_surplus _ _ _ = Ok _ |- _ => apply creator_surplus_eq in X; auto;
    [subst | unfold is_curve_complete in *; lia] end.
  unfold is_curve_complete in *. unb. minv. bks.
  assert (P : p_progress (w_pool w) =? 0 = false) by lia. rewrite P in *.
  assert (S : p_creator_surplus (w_pool w) = 0) by lia. rewrite S.
  change (unless true ?x) with 0. change (unless (0 =? 1) ?x) with x. lia.
Qed.

Lemma bk_migration_fee w s t f w' : Inv w -> withdraw_migration_fee w s t f = Ok w' ->
  books w w' 0 0 0 0.
Proof.
  intros I H. pose proof (created_cfg_ok _ (iv_created _ I)) as K.
  pose proof (iv_complete _ I) as CO. pose proof (iv_status _ I) as ST.
  unfold withdraw_migration_fee in H. cbv zeta in H.
  apply bind_ok in H. destruct H as (u & C & H). apply require_ok in C.
  unfold is_curve_complete in C.
  apply bind_ok in H. destruct H as ([pf cf] & D & H).
  apply mig_fee_dist_eq in D; auto. destruct D as (-> & ->).
  destruct (f =? 0) eqn:F0; [|destruct (f =? 1) eqn:F1; [|discriminate]];
  apply bind_ok in H; destruct H as (u1 & _ & H);
  apply bind_ok in H; destruct H as (u2 & B & H); apply require_ok in B;
  unb; minv; bks;
  assert (P : p_progress (w_pool w) =? 0 = false) by lia; rewrite P in *;
  destruct ST as [X|[X|[X|X]]]; rewrite X in *; vm_compute in B; try discriminate B; bits; lia.
Qed.

Lemma bk_leftover w w' : Inv w -> withdraw_leftover w = Ok w' -> books w w' 0 0 0 0.
Proof.
  intros I H. unfold withdraw_leftover in H. cbv zeta in H. minv.
  match goal with X : get_protocol_and_trading_base_fee _ = Ok _ |- _ => apply fees_sum_eq in X; subst end.
  unfold CreatedPool in *. unb. minv.
  assert (P : p_progress (w_pool w) = 3) by lia. bks; try rewrite P in *; simpl in *; try lia.
Qed.

Lemma bk_partner_cf w s t w' : Inv w -> claim_partner_creation_fee w s t = Ok w' -> books w w' 0 0 0 0.
Proof.
  intros I H. unfold claim_partner_creation_fee in H. cbv zeta in H.
  apply bind_ok in H. destruct H as (u & _ & H).
  apply bind_ok in H. destruct H as ([a b] & S & H). apply creation_split_eq in S.
  destruct S as (-> & ->). simpl snd in H.
  apply bind_ok in H. destruct H as (u1 & _ & H).
  apply bind_ok in H. destruct H as (u2 & B & H). apply require_ok in B.
  pose proof (iv_cbits _ I) as CB.
  unb. minv. bks.
  destruct CB as [X|[X|[X|X]]]; rewrite X in *; vm_compute in B; try discriminate B; bits; lia.
Qed.

Lemma bk_protocol_cf w s w' : Inv w -> claim_protocol_creation_fee w s = Ok w' -> books w w' 0 0 0 0.
Proof.
  intros I H. unfold claim_protocol_creation_fee in H. cbv zeta in H.
  apply bind_ok in H. destruct H as (u & _ & H).
  pose proof (created_cfg_ok _ (iv_created _ I)) as K. pose proof (iv_cbits _ I) as CB.
  assert (NN : 0 <= creation_fee_protocol (w_config w)).
  { apply div_nonneg; pose proof (ok_pcf _ K); lia. }
  apply bind_ok in H. destruct H as ([p1 fee] & R & H).
  assert (LG : p_legacy_bits p1 = 0).
  { destruct (bit_unset _ _) in R; minv; inversion R; subst; apply (iv_legacy _ I). }
  rewrite LG in H. simpl in H.
  destruct (bit_unset (p_creation_bits (w_pool w)) PROTOCOL_CREATION_FEE_MASK) eqn:B.
  - apply bind_ok in R. destruct R as ([a b] & S & R). apply creation_split_eq in S.
    destruct S as (-> & ->). apply Ok_inj in R. apply pair_inj in R. destruct R as (<- & <-).
    simpl in H.
    destruct (0 <? creation_fee_protocol (w_config w)) eqn:Z0;
    unb; minv; bks;
    destruct CB as [X|[X|[X|X]]]; rewrite X in *; vm_compute in B; try discriminate B; bits; lia.
  - apply Ok_inj in R. apply pair_inj in R. destruct R as (<- & <-). simpl in H. minv.
    rewrite set_pool_self; auto. bks.
Qed.

Lemma bk_transfer_creator w s n w' : Inv w -> transfer_creator w s n = Ok w' -> books w w' 0 0 0 0.
Proof.
  intros I H. unfold transfer_creator in H. cbv zeta in H.
  apply bind_ok in H. destruct H as (u & _ & H).
  apply bind_ok in H. destruct H as (u1 & _ & H).
  apply bind_ok in H. destruct H as (u2 & _ & H). apply Ok_inj in H. subst w'. bks.
Qed.

Lemma bk_locker w w' : Inv w -> create_locker w = Ok w' -> books w w' 0 0 0 0.
Proof.
  intros I H. unfold create_locker in H. cbv zeta in H.
  apply bind_ok in H. destruct H as (u & P & H). apply require_ok in P.
  apply bind_ok in H. destruct H as (t & T & H). apply lv_total_eq in T.
  unfold PostBondingCurve in P. assert (P1 : p_progress (w_pool w) = 1) by lia.
  unb. unfold LockedVesting in *. minv. bks; rewrite ?P1 in *; simpl in *; try lia; try discriminate.
Qed.

Lemma bk_metadata w w' : Inv w -> create_v1_metadata w = Ok w' -> books w w' 0 0 0 0.
Proof.
  intros I H. unfold create_v1_metadata in H. minv.
  assert (M : w_meta w = None) by (destruct (w_meta w); [discriminate|auto]).
  bks. rewrite M in *. bits. lia.
Qed.

Lemma bk_swap w a w' : Inv w -> 0 <= sa_amount0 a -> do_swap w a = Ok w' -> books w w' 0 0 0 0.
Proof.
  intros I HA H. pose proof (created_cfg_ok _ (iv_created _ I)) as K.
  pose proof (created_fees_ok _ (iv_created _ I)) as FK.
  unfold do_swap in H. apply bind_ok in H. destruct H as ([w2 r] & S & H). apply Ok_inj in H.
  simpl in H. subst w2.
  apply swap_full_effect in S; auto; [|apply (iv_price _ I)].
  destruct S as (fm & num & fee & gross & pf & cf & cur & p1 & E & _ & _).
  destruct E as [_ _ OPEN FM SF POOL BV QV _ SAME _].
  destruct POOL as (p2 & AP & PR & _ & CASES).
  assert (CW : w_config w' = w_config w) by (rewrite SAME; reflexivity).
  assert (LW : w_lamports w' = w_lamports w) by (rewrite SAME; reflexivity).
  assert (MW : w_meta w' = w_meta w) by (rewrite SAME; reflexivity).
  assert (LPW : w_lp w' = w_lp w) by (rewrite SAME; reflexivity).
  clear SAME.
  pose proof (swap_vault_move w w' a fm r num fee gross pf cf p2 K FM SF AP BV QV) as [QD BD _ _ _ _ _ _ _ _].
  destruct (ap_rest _ _ _ _ _ _ _ _ _ AP) as [R1 R2 R3 R4 R5 R6 R7 R8 R9 R10 R11 R12 R13].
  assert (P0 : p_progress (w_pool w) = 0) by (apply (iv_complete _ I); auto).
  destruct (iv_open _ I P0) as (PS & CS & PRS & MS).
  assert (P3 : p_progress (w_pool w') <> 3).
  { destruct CASES as [(_ & ->)|(_ & _ & ->)]; [congruence|]. simpl. destruct (has_vesting _); discriminate. }
  assert (ST : settled w = false) by (unfold settled; rewrite P0; reflexivity).
  assert (ST' : settled w' = false).
  { unfold settled. replace (p_progress (w_pool w') =? 3) with false by (clear - P3; lia). reflexivity. }
  assert (VZ : has_vesting (c_vesting (w_config w)) = false -> vesting_total (w_config w) = 0).
  { intros HV. destruct (ok_vest _ K) as (t & T & T2 & T3). apply lv_total_eq in T.
    destruct (Z.eq_dec t 0); [lia|]. rewrite (proj2 T3) in HV; [discriminate|lia]. }
  assert (CB : p_creation_bits (w_pool w') = p_creation_bits (w_pool w)).
  { destruct CASES as [(_ & ->)|(_ & _ & ->)]; simpl; congruence. }
  constructor; [| | | congruence | congruence |].
  - unfold quote_owed. rewrite CW, P0. simpl (0 =? 0). cbv iota.
    destruct CASES as [(_ & ->)|(GE & _ & ->)].
    + rewrite PR, P0. simpl (0 =? 0). cbv iota. clear - QD. lia.
    + pose proof (surplus_parts (w_config w) (p_quote p2) K GE) as (SU1 & SU2 & SU3 & SU4).
      pose proof (mig_fee_parts (w_config w) K) as (MF1 & MF2 & MF3 & MF4 & MF5).
      cbn [p_progress p_quote p_partner_quote p_creator_quote p_protocol_quote p_mig_quote_fee
        p_partner_surplus p_creator_surplus p_protocol_surplus p_mig_fee_status set_progress set_finish].
      rewrite ?R3, ?R4, ?R5, ?R6, ?R7, ?R8, ?R9, ?R10, ?R11, ?R12, ?R13, ?PS, ?CS, ?PRS, ?MS.
      replace ((if has_vesting (c_vesting (w_config w)) then PostBondingCurve else LockedVesting) =? 0)
        with false by (destruct (has_vesting _); reflexivity).
      replace ((if has_vesting (c_vesting (w_config w)) then PostBondingCurve else LockedVesting) =? 3)
        with false by (destruct (has_vesting _); reflexivity).
      change (Z.testbit 0 ?b) with false. change (unless (0 =? 1) ?x) with x.
      change (unless false ?x) with x. unfold surplus_total in *. clear - QD SU4 MF4. lia.
  - unfold lamports_owed. rewrite CW, LW, CB. lia.
  - intros _. split; [congruence|]. unfold base_books. rewrite CW, P0. simpl (0 =? 2). cbv iota.
    destruct CASES as [(_ & ->)|(GE & _ & ->)].
    + rewrite PR, P0. simpl (0 =? 2). cbv iota. clear - BD. lia.
    + cbn [p_progress p_base p_partner_base p_creator_base p_protocol_base set_progress set_finish].
      destruct (has_vesting _); unfold PostBondingCurve, LockedVesting.
      * simpl (1 =? 2). cbv iota. clear - BD. lia.
      * rewrite (VZ eq_refl). simpl (2 =? 2). cbv iota. clear - BD. lia.
  - unfold lp_owed. rewrite MW, LPW. auto.
Qed.

Lemma paid_quote w o w' : exec w o = Ok w' -> (exists p l, eff w w' p l) ->
  paid TQuote w o = w_qvault w - w_qvault w'.
Proof.
  intros H (p & l & E). unfold paid. rewrite (moved_eff _ _ _ _ _ H E), (ef_quote _ _ _ _ E). lia.
Qed.

Lemma quote_migrated w w' fb fq : p_progress (w_pool w) = 2 ->
  w_config w' = w_config w -> w_pool w' = migrated_pool (w_pool w) fb fq ->
  quote_owed w' = quote_owed w - (c_threshold (w_config w) - migration_fee_total (w_config w)) + fq.
Proof.
  intros P C W. unfold quote_owed. rewrite C, W, P. simpl. lia.
Qed.

Lemma settled_migrated w o w' : reachable w -> migrate_op o = true -> exec w o = Ok w' ->
  p_progress (w_pool w') = 3 -> w_config w' = w_config w -> p_leftover (w_pool w') = 0 ->
  settled w' = true -> w_bvault w' = base_owed w'.
Proof.
  intros R M H P C LF S.
  destruct (C51_burn_at_migration w o w' R M H) as (_ & _ & _ & _ & D & _).
  unfold settled in S. rewrite P, C, LF in S. simpl in S.
  assert (F : is_fixed_supply (w_config w) = false) by (destruct (is_fixed_supply _); [discriminate|auto]).
  specialize (D F). unfold base_fees_owed in D. unfold base_owed. rewrite P. simpl. lia.
Qed.

Lemma bk_migrate_v1 w ok lp w' : reachable w -> exec w (OMigrateV1 ok lp) = Ok w' ->
  books w w' 0 (quote_untaken w (OMigrateV1 ok lp)) 0 0 /\ quote_untaken w (OMigrateV1 ok lp) = 0.
Proof.
  intros R H. pose proof (reachable_inv _ R) as I. pose proof H as H0.
  pose proof (exec_args _ _ _ H) as A. unfold exec in H. rewrite A in H. cbn [require bind] in H.
  simpl in A. apply u64b_ok in A. destruct A as (A & _).
  pose proof (created_pcts _ (iv_created _ I)) as PK.
  apply migrate_v1_eff in H.
  destruct H as (m & m' & fb & fq & eb & eq & b & mb & _ & P2 & MO & M & S & E & _ & _ & _ & LP & M' & (da & db & D & ->) & _).
  destruct (split_ok _ _ _ _ _ _ I S) as (ib & iq & EB & EQ & FB & FQ & IQ & _).
  destruct (iv_premig _ I) as (_ & _ & LF & _); [rewrite P2; discriminate|].
  assert (U : quote_untaken w (OMigrateV1 ok lp) = 0).
  { unfold quote_untaken. rewrite H0. simpl is_ok. cbv iota.
    unfold paid. rewrite (moved_eff _ _ _ _ _ H0 E). unfold step. rewrite H0, (ef_pool _ _ _ _ E).
    rewrite net_app. replace (net TQuote (burned b)) with 0 by (unfold burned; destruct (0 <? b); reflexivity).
    unfold net, flow. simpl. lia. }
  split; [|exact U]. rewrite U.
  constructor.
  - rewrite (quote_migrated w w' fb fq P2 (ef_config _ _ _ _ E) (ef_pool _ _ _ _ E)).
    pose proof (ef_quote _ _ _ _ E) as Q. rewrite net_app in Q.
    replace (net TQuote (burned b)) with 0 in Q by (unfold burned; destruct (0 <? b); reflexivity).
    unfold net, flow in Q. simpl in Q. lia.
  - pose proof (ef_sol _ _ _ _ E) as Q. rewrite net_app in Q.
    replace (net TSol (burned b)) with 0 in Q by (unfold burned; destruct (0 <? b); reflexivity).
    unfold net, flow in Q. simpl in Q. unfold lamports_owed.
    rewrite (ef_pool _ _ _ _ E), (ef_config _ _ _ _ E). simpl. lia.
  - rewrite (ef_pool _ _ _ _ E). intros X. elim X. reflexivity.
  - unfold settled. rewrite P2. discriminate.
  - intros _. apply (settled_migrated w (OMigrateV1 ok lp)); auto.
    + rewrite (ef_pool _ _ _ _ E). reflexivity.
    + apply (ef_config _ _ _ _ E).
    + rewrite (ef_pool _ _ _ _ E). exact LF.
  - intros _. apply liq_dist_ok in D; try (apply PK); auto.
    destruct (pk_v1 _ PK) as (V1 & V2); [lia|]. rewrite V1, V2, Z.mul_0_r in D.
    change (0 / 100) with 0 in D.
    pose proof (iv_meta _ I) as MI. rewrite M in MI.
    destruct MI as (_ & _ & _ & _ & _ & _ & _ & _ & M5).
    destruct (M5 ltac:(lia)) as (D1 & D2 & D3 & D4).
    unfold lp_owed. rewrite M', LP. simpl. rewrite D1, D2, D3, D4. simpl. unfold unless. lia.
Qed.

Lemma bk_migrate_v2 w x now w' : reachable w -> exec w (OMigrateV2 x now) = Ok w' ->
  books w w' 0 (quote_untaken w (OMigrateV2 x now)) 0 0
  /\ 0 <= quote_untaken w (OMigrateV2 x now).
Proof.
  intros R H. pose proof (reachable_inv _ R) as I. pose proof H as H0.
  pose proof (exec_args _ _ _ H) as A. unfold exec in H. rewrite A in H. cbn [require bind] in H.
  apply migrate_v2_eff in H.
  destruct H as (fb & fq & eb & eq & l2 & b & mb & h & _ & P2 & _ & S & L2 & D1 & D2 & E & _ & _ & _ & LP & M' & _).
  destruct (split_ok _ _ _ _ _ _ I S) as (ib & iq & EB & EQ & FB & FQ & IQ & _).
  destruct (iv_premig _ I) as (_ & _ & LF & _); [rewrite P2; discriminate|].
  assert (U : quote_untaken w (OMigrateV2 x now)
     = iq - fq - (w_qvault w - w_qvault w')).
  { unfold quote_untaken. rewrite H0. simpl is_ok. cbv iota.
    rewrite (paid_quote _ _ _ H0) by eauto. unfold step. rewrite H0, (ef_pool _ _ _ _ E). simpl. lia. }
  assert (Q : w_qvault w - w_qvault w' <= eq).
  { pose proof (ef_quote _ _ _ _ E) as Q. rewrite !net_app in Q.
    replace (net TQuote (burned b)) with 0 in Q by (unfold burned; destruct (0 <? b); reflexivity).
    destruct L2 as [->|(-> & G)]; unfold net, flow in Q; simpl in Q; lia. }
  assert (SO : w_lamports w' = w_lamports w).
  { pose proof (ef_sol _ _ _ _ E) as X. rewrite !net_app in X.
    replace (net TSol (burned b)) with 0 in X by (unfold burned; destruct (0 <? b); reflexivity).
    destruct L2 as [->|(-> & G)]; unfold net, flow in X; simpl in X; lia. }
  split; [|lia]. rewrite U.
  constructor.
  - rewrite (quote_migrated w w' fb fq P2 (ef_config _ _ _ _ E) (ef_pool _ _ _ _ E)). lia.
  - unfold lamports_owed. rewrite (ef_pool _ _ _ _ E), (ef_config _ _ _ _ E). simpl. lia.
  - rewrite (ef_pool _ _ _ _ E). intros X. elim X. reflexivity.
  - unfold settled. rewrite P2. discriminate.
  - intros _. apply (settled_migrated w (OMigrateV2 x now)); auto.
    + rewrite (ef_pool _ _ _ _ E). reflexivity.
    + apply (ef_config _ _ _ _ E).
    + rewrite (ef_pool _ _ _ _ E). exact LF.
  - unfold lp_owed. rewrite LP, M'. auto.
Qed.

Lemma bk_lp_pay w m' a to w' :
  lp_owed (set_w_meta w (Some m')) + a = lp_owed w ->
  pay_lp (set_w_meta w (Some m')) to a = Ok w' -> books w w' 0 0 0 0.
Proof.
  intros HO H. unfold pay_lp, log in H. apply bind_ok in H. destruct H as (u & L & H).
  apply Ok_inj in H. subst w'. constructor; unfold quote_owed, base_owed, base_books, lamports_owed, settled;
  simpl; intros; auto; try lia; try congruence.
  unfold lp_owed in *. simpl in *. lia.
Qed.

Lemma bk_lock_lp w o w' : Inv w -> lock_lp w o = Ok w' -> books w w' 0 0 0 0.
Proof.
  intros I H. unfold lock_lp in H.
  apply bind_ok in H. destruct H as (u & P & H). apply require_ok in P. unfold CreatedPool in P.
  apply bind_ok in H. destruct H as (m & M & H). apply ok_or_ok in M.
  apply bind_ok in H. destruct H as ([m' a] & R & H).
  pose proof (iv_meta _ I) as MI. rewrite M in MI.
  destruct MI as (M1 & M2 & M3 & M4 & M5 & M6 & M7 & M8 & M9).
  destruct (meta_lock_ok w m m' a o (w_pool w) M M1 M2 M3 M4 M5 M6 M7 M8 (or_introl R)) as (Q & LO).
  eapply bk_lp_pay; eauto.
Qed.

Lemma bk_claim_lp w o w' : Inv w -> claim_lp w o = Ok w' -> books w w' 0 0 0 0.
Proof.
  intros I H. unfold claim_lp in H.
  apply bind_ok in H. destruct H as (u & P & H). apply require_ok in P. unfold CreatedPool in P.
  apply bind_ok in H. destruct H as (m & M & H). apply ok_or_ok in M.
  apply bind_ok in H. destruct H as ([m' a] & R & H).
  pose proof (iv_meta _ I) as MI. rewrite M in MI.
  destruct MI as (M1 & M2 & M3 & M4 & M5 & M6 & M7 & M8 & M9).
  destruct (meta_lock_ok w m m' a o (w_pool w) M M1 M2 M3 M4 M5 M6 M7 M8 (or_intror R)) as (Q & LO).
  eapply bk_lp_pay; eauto.
Qed.

Lemma bk_gift w w' : w_pool w' = w_pool w -> w_config w' = w_config w -> w_meta w' = w_meta w ->
  w_lp w' = w_lp w ->
  books w w' (w_qvault w' - w_qvault w) 0 (w_bvault w' - w_bvault w) (w_lamports w' - w_lamports w).
Proof.
  intros P C M L. constructor; unfold quote_owed, base_owed, base_books, lamports_owed, lp_owed, settled;
  rewrite ?P, ?C, ?M, ?L; intros; auto; try lia; try congruence.
Qed.

Lemma bk_gift' w w' gq gb gs : w_pool w' = w_pool w -> w_config w' = w_config w ->
  w_meta w' = w_meta w -> w_lp w' = w_lp w -> w_qvault w' = w_qvault w + gq ->
  w_bvault w' = w_bvault w + gb -> w_lamports w' = w_lamports w + gs -> books w w' gq 0 gb gs.
Proof.
  intros P C M L Q B S. replace gq with (w_qvault w' - w_qvault w) by lia.
  replace gb with (w_bvault w' - w_bvault w) by lia.
  replace gs with (w_lamports w' - w_lamports w) by lia. apply bk_gift; auto.
Qed.

Ltac nogift :=
  unfold create_operator, close_operator, recv_base, recv_quote in *; minv;
  apply bk_gift'; simpl; auto; lia.

Lemma exec_books w o w' : reachable w -> exec w o = Ok w' ->
  books w w' (quote_given w o) (quote_untaken w o) (base_given w o) (sol_given w o).
Proof.
  intros R H. pose proof (reachable_inv _ R) as I. pose proof H as H0. pose proof (exec_args _ _ _ H) as A.
  unfold exec in H. rewrite A in H. cbn [require bind] in H.
  assert (O : is_ok (exec w o) = true) by (rewrite H0; reflexivity).
  destruct o; simpl in A; repeat rewrite andb_true_iff in A;
    repeat match goal with X : _ /\ _ |- _ => destruct X end;
    repeat match goal with X : u64b _ = true |- _ => apply u64b_ok in X; destruct X end;
    unfold quote_given, base_given, sol_given; try rewrite O; cbv iota;
    try match goal with |- books _ _ _ (quote_untaken _ ?o) _ _ =>
      lazymatch o with OMigrateV1 _ _ => idtac | OMigrateV2 _ _ => idtac
      | _ => change (quote_untaken w o) with 0 end end.
  - eapply bk_swap; eauto.
  - eapply bk_partner with (b := maxb) (q := maxq); eauto.
  - eapply bk_creator with (b := maxb) (q := maxq); eauto.
  - eapply bk_protocol with (b := maxb) (q := maxq); eauto.
  - eapply bk_zap with (m := maxa); eauto.
  - eapply bk_partner_surplus; eauto.
  - eapply bk_creator_surplus; eauto.
  - eapply bk_migration_fee; eauto.
  - eapply bk_leftover; eauto.
  - eapply bk_partner_cf; eauto.
  - eapply bk_protocol_cf; eauto.
  - eapply bk_transfer_creator; eauto.
  - eapply bk_locker; eauto.
  - eapply bk_metadata; eauto.
  - apply (bk_migrate_v1 w config_ok lp w' R H0).
  - apply (bk_migrate_v2 w x now w' R H0).
  - eapply bk_lock_lp; eauto.
  - eapply bk_claim_lp; eauto.
  - nogift.
  - nogift.
  - nogift.
  - nogift.
  - nogift.
  - nogift.
  - nogift.
Qed.

Lemma initial_books w : initial w ->
  w_qvault w = quote_owed w /\ w_lamports w = lamports_owed w
  /\ p_progress (w_pool w) = 0 /\ w_bvault w = base_books w /\ w_lp w = lp_owed w.
Proof.
  intros (c & key & creator & payer & tt & slot & time & admins & ops & _ & _ & _ & H).
  unfold initialize_pool in H. minv. unfold quote_owed, lamports_owed, base_books, lp_owed. simpl.
  change (Z.testbit 0 ?b) with false. unfold unless. lia.
Qed.

(** Balance at the end of a history. *)
Record balanced (w : world) (gq uq gb gl gs : Z) : Prop := {
  bl_quote : w_qvault w = quote_owed w + gq + uq;
  bl_sol : w_lamports w = lamports_owed w + gs;
  bl_base : p_progress (w_pool w) <> 3 -> w_bvault w = base_books w + gb;
  bl_late : settled w = true -> w_bvault w = base_owed w + gl;
  bl_early : settled w = false -> gl = 0;
  bl_lp : w_lp w = lp_owed w
}.

Lemma balanced_run ops : forall w gq uq gb gl gs, reachable w -> balanced w gq uq gb gl gs ->
  balanced (run w ops) (gq + total quote_given w ops) (uq + total quote_untaken w ops)
    (gb + total base_given w ops) (gl + total base_given_late w ops) (gs + total sol_given w ops).
Proof.
  induction ops as [|o ops IH]; intros w gq uq gb gl gs R B; cbn [total].
  - rewrite !Z.add_0_r. exact B.
  - change (run w (o :: ops)) with (run (step w o) ops). rewrite !Z.add_assoc.
    destruct (exec w o) as [w'|e] eqn:E.
    + pose proof (exec_books w o w' R E) as K. assert (ST : step w o = w') by (unfold step; rewrite E; auto).
      rewrite ST in *. apply IH.
      { eapply reachable_exec; eauto. }
      destruct B as [b1 b2 b3 b4 b5 b6], K as [k1 k2 k3 k4 k5 k6]. constructor.
      * lia.
      * lia.
      * intros N. destruct (k3 N) as (N1 & Q). specialize (b3 N1). lia.
      * intros S. unfold base_given_late. destruct (settled w) eqn:S0.
        -- destruct (k4 eq_refl) as (_ & Q). specialize (b4 eq_refl). lia.
        -- specialize (b5 eq_refl). specialize (k5 eq_refl S). lia.
      * intros S. unfold base_given_late. destruct (settled w) eqn:S0.
        -- destruct (k4 eq_refl) as (Q & _). congruence.
        -- specialize (b5 eq_refl). lia.
      * auto.
    + assert (ST : step w o = w) by (unfold step; rewrite E; auto). rewrite ST.
      assert (Z : quote_given w o = 0 /\ quote_untaken w o = 0 /\ base_given w o = 0
        /\ base_given_late w o = 0 /\ sol_given w o = 0).
      { unfold base_given_late, quote_given, quote_untaken, base_given, sol_given.
        destruct o; rewrite ?E; simpl; destruct (settled w); auto. }
      destruct Z as (-> & -> & -> & -> & ->). rewrite !Z.add_0_r. apply IH; auto.
Qed.

Lemma balanced_history w0 ops : initial w0 ->
  balanced (run w0 ops) (total quote_given w0 ops) (total quote_untaken w0 ops)
    (total base_given w0 ops) (total base_given_late w0 ops) (total sol_given w0 ops).
Proof.
  intros I. destruct (initial_books _ I) as (Q & L & P & B & LP).
  apply (balanced_run ops w0 0 0 0 0 0).
  - exists w0, []. split; auto.
  - constructor; auto; try lia. unfold settled. rewrite P. discriminate.
Qed.

(** ** C69 *)

(** After any history, the quote vault holds exactly what is still owed to the parties, plus gifts,
    plus what the migrated pool did not take. *)
Theorem C69_quote_accounted : forall w0 ops, initial w0 ->
  w_qvault (run w0 ops) = quote_owed (run w0 ops)
    + total quote_given w0 ops + total quote_untaken w0 ops.
Proof. intros w0 ops I. exact (bl_quote _ _ _ _ _ _ (balanced_history w0 ops I)). Qed.

(** Until migration the base vault holds exactly the unclaimed fees, the curve's reserve (less the
    vested tokens once they are in the locker) and gifts. *)
Theorem C69_base_before_migration : forall w0 ops, initial w0 ->
  let w := run w0 ops in p_progress (w_pool w) <> 3 ->
  w_bvault w = p_partner_base (w_pool w) + p_creator_base (w_pool w) + p_protocol_base (w_pool w)
    + p_base (w_pool w) - (if p_progress (w_pool w) =? 2 then vesting_total (w_config w) else 0)
    + total base_given w0 ops.
Proof. intros w0 ops I w P. exact (bl_base _ _ _ _ _ _ (balanced_history w0 ops I) P). Qed.

(** Once migrated (and, for a fixed supply, once the leftover is withdrawn), the base vault holds
    exactly what is owed, plus gifts made after that. *)
Theorem C69_base_after_migration : forall w0 ops, initial w0 ->
  let w := run w0 ops in settled w = true ->
  w_bvault w = base_owed w + total base_given_late w0 ops.
Proof. intros w0 ops I w S. exact (bl_late _ _ _ _ _ _ (balanced_history w0 ops I) S). Qed.

(** The creation fee: what is there is what is owed, plus gifts. *)
Theorem C69_sol_accounted : forall w0 ops, initial w0 ->
  w_lamports (run w0 ops) = lamports_owed (run w0 ops) + total sol_given w0 ops.
Proof. intros w0 ops I. exact (bl_sol _ _ _ _ _ _ (balanced_history w0 ops I)). Qed.

(** DAMM v1 LP tokens: exactly what is not yet locked or handed out. *)
Theorem C69_lp_accounted : forall w, reachable w -> w_lp w = lp_owed w.
Proof. intros w (w0 & ops & I & ->). exact (bl_lp _ _ _ _ _ _ (balanced_history w0 ops I)). Qed.

(** What the migrated pool does not take: nothing for DAMM v1, never less than nothing. *)
Theorem C69_untaken : forall w o, reachable w ->
  0 <= quote_untaken w o
  /\ ((forall x now, o <> OMigrateV2 x now) -> quote_untaken w o = 0).
Proof.
  intros w o R. destruct o; try (split; [apply Z.le_refl|reflexivity]).
  - destruct (exec w (OMigrateV1 config_ok lp)) as [w'|e] eqn:E.
    + destruct (bk_migrate_v1 w config_ok lp w' R E) as (_ & ->). lia.
    + unfold quote_untaken. rewrite E. simpl. lia.
  - split; [|intros N; elim (N x now); reflexivity].
    destruct (exec w (OMigrateV2 x now)) as [w'|e] eqn:E.
    + apply (bk_migrate_v2 w x now w' R E).
    + unfold quote_untaken. rewrite E. simpl. lia.
Qed.

(** ** Everybody collects *)

(** One instruction of a party that collects: the pool afterwards, everything else it needs being
    the same. *)
Definition becomes (w : world) (o : op) (P : pool -> Prop) : Prop :=
  P (w_pool (step w o)) /\ w_config (step w o) = w_config w
  /\ w_operators (step w o) = w_operators w /\ reachable (step w o).

Lemma reachable_step w o : reachable w -> reachable (step w o).
Proof.
  intros R. unfold step. destruct (exec w o) as [w'|] eqn:E; [|exact R]. eapply reachable_exec; eauto.
Qed.

Lemma is_ok_inv {A} (r : res A) : is_ok r = true -> exists a, r = Ok a.
Proof. destruct r; [eauto|discriminate]. Qed.

Lemma becomes_ok w o p l (P : pool -> Prop) w' : reachable w -> exec w o = Ok w' ->
  eff w w' p l -> rest_same w w' -> P p -> becomes w o P.
Proof.
  intros R H E S HP. assert (ST : step w o = w') by (unfold step; rewrite H; auto).
  unfold becomes. rewrite ST. rewrite (ef_pool _ _ _ _ E). split; auto. split; [apply (ef_config _ _ _ _ E)|].
  split; [apply (rs_operators _ _ S)|]. eapply reachable_exec; eauto.
Qed.

Lemma becomes_err w o e (P : pool -> Prop) : reachable w -> exec w o = Err e -> P (w_pool w) ->
  becomes w o P.
Proof.
  intros R H HP. assert (ST : step w o = w) by (unfold step; rewrite H; auto).
  unfold becomes. rewrite ST. auto.
Qed.

Lemma max64 : u64ok U64_MAX. Proof. unfold u64ok, U64_MAX. lia. Qed.

Ltac exec_in H := pose proof (exec_args _ _ _ H) as A; unfold exec in H; rewrite A in H;
  cbn [require bind] in H.

Lemma go_partner w to : reachable w ->
  becomes w (OClaimPartner (c_fee_claimer (w_config w)) to U64_MAX U64_MAX)
    (fun p => p = set_partner_quote (set_partner_base (w_pool w) 0) 0).
Proof.
  intros R. pose proof (reachable_inv _ R) as I. destruct (reachable_bounded _ R) as [BB BQ _].
  pose proof (due_ok _ I) as (mp & mc & sp & sc & sr & []).
  destruct (is_ok_inv _ (C17_partner_can_claim w to U64_MAX U64_MAX R max64 max64)) as (w' & H).
  pose proof H as H0. exec_in H. apply partner_eff in H. destruct H as (_ & E & S).
  eapply becomes_ok; eauto. rewrite !Z.min_l by lia. rewrite !Z.sub_diag. reflexivity.
Qed.

Lemma go_creator w to : reachable w ->
  becomes w (OClaimCreator (p_creator (w_pool w)) to U64_MAX U64_MAX)
    (fun p => p = set_creator_quote (set_creator_base (w_pool w) 0) 0).
Proof.
  intros R. pose proof (reachable_inv _ R) as I. destruct (reachable_bounded _ R) as [BB BQ _].
  pose proof (due_ok _ I) as (mp & mc & sp & sc & sr & []).
  destruct (is_ok_inv _ (C17_creator_can_claim w to U64_MAX U64_MAX R max64 max64)) as (w' & H).
  pose proof H as H0. exec_in H. apply creator_eff in H. destruct H as (_ & E & S).
  eapply becomes_ok; eauto. rewrite !Z.min_l by lia. rewrite !Z.sub_diag. reflexivity.
Qed.

Lemma go_partner_surplus w to : reachable w -> c_threshold (w_config w) <= p_quote (w_pool w) ->
  becomes w (OPartnerSurplus (c_fee_claimer (w_config w)) to)
    (fun p => p = set_partner_surplus (w_pool w) 1).
Proof.
  intros R C. pose proof (reachable_inv _ R) as I. destruct (iv_flags _ I) as (F & _).
  destruct (exec w (OPartnerSurplus (c_fee_claimer (w_config w)) to)) as [w'|e] eqn:H.
  - pose proof H as H0. exec_in H. apply partner_surplus_eff in H; auto.
    destruct H as (_ & _ & _ & E & S). eapply becomes_ok; eauto.
  - eapply becomes_err; eauto. destruct F as [F|F].
    + pose proof (C17_partner_can_withdraw_surplus w to R C F) as X. rewrite H in X. discriminate.
    + destruct (w_pool w). simpl in *. subst. reflexivity.
Qed.

Lemma go_creator_surplus w to : reachable w -> c_threshold (w_config w) <= p_quote (w_pool w) ->
  becomes w (OCreatorSurplus (p_creator (w_pool w)) to)
    (fun p => p = set_creator_surplus (w_pool w) 1).
Proof.
  intros R C. pose proof (reachable_inv _ R) as I. destruct (iv_flags _ I) as (_ & F & _).
  destruct (exec w (OCreatorSurplus (p_creator (w_pool w)) to)) as [w'|e] eqn:H.
  - pose proof H as H0. exec_in H. apply creator_surplus_eff in H; auto.
    destruct H as (_ & _ & _ & E & S). eapply becomes_ok; eauto.
  - eapply becomes_err; eauto. destruct F as [F|F].
    + pose proof (C17_creator_can_withdraw_surplus w to R C F) as X. rewrite H in X. discriminate.
    + destruct (w_pool w). simpl in *. subst. reflexivity.
Qed.

Lemma set_status_self p : set_mig_fee_status p (p_mig_fee_status p) = p.
Proof. destruct p; reflexivity. Qed.
Lemma set_cbits_self p : set_creation_bits p (p_creation_bits p) = p.
Proof. destruct p; reflexivity. Qed.

Lemma go_mig_partner w to : reachable w -> c_threshold (w_config w) <= p_quote (w_pool w) ->
  becomes w (OMigrationFee (c_fee_claimer (w_config w)) to 0)
    (fun p => exists s, p = set_mig_fee_status (w_pool w) s /\ Z.testbit s 2 = true
       /\ Z.testbit s 1 = Z.testbit (p_mig_fee_status (w_pool w)) 1).
Proof.
  intros R C. pose proof (reachable_inv _ R) as I. pose proof (iv_status _ I) as ST.
  destruct (exec w (OMigrationFee (c_fee_claimer (w_config w)) to 0)) as [w'|e] eqn:H.
  - pose proof H as H0. exec_in H. apply migration_fee_eff in H; auto.
    destruct H as (_ & S & [(_ & _ & B & E)|(X & _)]); [|discriminate X].
    eapply becomes_ok; eauto. eexists. split; [reflexivity|].
    destruct ST as [X|[X|[X|X]]]; rewrite X in *; try discriminate B; split; reflexivity.
  - eapply becomes_err; eauto. exists (p_mig_fee_status (w_pool w)). rewrite set_status_self.
    split; [reflexivity|]. split; [|reflexivity].
    destruct (Z.testbit (p_mig_fee_status (w_pool w)) 2) eqn:B; [reflexivity|].
    pose proof (proj1 (C17_migration_fee_can_be_withdrawn w to R C) B) as X. rewrite H in X. discriminate.
Qed.

Lemma go_mig_creator w to : reachable w -> c_threshold (w_config w) <= p_quote (w_pool w) ->
  becomes w (OMigrationFee (p_creator (w_pool w)) to 1)
    (fun p => exists s, p = set_mig_fee_status (w_pool w) s /\ Z.testbit s 1 = true
       /\ Z.testbit s 2 = Z.testbit (p_mig_fee_status (w_pool w)) 2).
Proof.
  intros R C. pose proof (reachable_inv _ R) as I. pose proof (iv_status _ I) as ST.
  destruct (exec w (OMigrationFee (p_creator (w_pool w)) to 1)) as [w'|e] eqn:H.
  - pose proof H as H0. exec_in H. apply migration_fee_eff in H; auto.
    destruct H as (_ & S & [(X & _)|(_ & _ & B & E)]); [discriminate X|].
    eapply becomes_ok; eauto. eexists. split; [reflexivity|].
    destruct ST as [X|[X|[X|X]]]; rewrite X in *; try discriminate B; split; reflexivity.
  - eapply becomes_err; eauto. exists (p_mig_fee_status (w_pool w)). rewrite set_status_self.
    split; [reflexivity|]. split; [|reflexivity].
    destruct (Z.testbit (p_mig_fee_status (w_pool w)) 1) eqn:B; [reflexivity|].
    pose proof (proj2 (C17_migration_fee_can_be_withdrawn w to R C) B) as X. rewrite H in X. discriminate.
Qed.

Lemma go_protocol w s : reachable w -> c_threshold (w_config w) <= p_quote (w_pool w) ->
  permitted w s 0 ->
  becomes w (OClaimProtocol s U64_MAX U64_MAX)
    (fun p => p = set_protocol_surplus (set_mig_quote_fee (set_protocol_quote
        (set_mig_base_fee (set_protocol_base (w_pool w) 0) 0) 0) 0) 1).
Proof.
  intros R C PE. pose proof (reachable_inv _ R) as I. destruct (reachable_bounded _ R) as [BB BQ _].
  pose proof (due_ok _ I) as (mp & mc & sp & sc & sr & []).
  destruct (iv_flags _ I) as (_ & _ & F & _).
  destruct (is_ok_inv _ (C17_protocol_can_claim w s U64_MAX U64_MAX R max64 max64 PE)) as (w' & H).
  pose proof H as H0. exec_in H. apply protocol_eff in H; auto; try (apply max64).
  destruct H as (_ & p' & E & S & a1 & b1 & a2 & b2 & X & Y & A1 & B1 & A2 & B2 & P).
  cbv zeta in P. pose proof (reachable_inv _ (reachable_exec _ _ _ R H0)) as I'.
  pose proof (iv_nonneg _ I') as (_ & _ & _ & _ & M1 & M2 & M3 & M4 & _).
  rewrite (ef_pool _ _ _ _ E) in M1, M2, M3, M4.
  rewrite Z.min_r in X, Y by lia.
  assert (Q : p' = set_protocol_surplus (set_mig_quote_fee (set_protocol_quote
        (set_mig_base_fee (set_protocol_base (w_pool w) (p_protocol_base (w_pool w) - a1))
           (p_mig_base_fee (w_pool w) - b1)) (p_protocol_quote (w_pool w) - a2))
           (p_mig_quote_fee (w_pool w) - b2)) 1).
  { rewrite P. destruct F as [F|F]; rewrite F.
    - replace (c_threshold (w_config w) <=? p_quote (w_pool w)) with true by lia. reflexivity.
    - simpl. destruct (w_pool w). simpl in *. subst. reflexivity. }
  clear P. subst p'. simpl in M1, M2, M3, M4.
  eapply becomes_ok; eauto.
  replace (p_protocol_base (w_pool w) - a1) with 0 by lia.
  replace (p_mig_base_fee (w_pool w) - b1) with 0 by lia.
  replace (p_protocol_quote (w_pool w) - a2) with 0 by lia.
  replace (p_mig_quote_fee (w_pool w) - b2) with 0 by lia. reflexivity.
Qed.

Lemma go_creation_partner w to : reachable w ->
  becomes w (OPartnerCreationFee (c_fee_claimer (w_config w)) to)
    (fun p => exists s, p = set_creation_bits (w_pool w) s
       /\ unless (Z.testbit s 1) (c_pool_creation_fee (w_config w) - creation_fee_protocol (w_config w)) = 0
       /\ Z.testbit s 0 = Z.testbit (p_creation_bits (w_pool w)) 0).
Proof.
  intros R. pose proof (reachable_inv _ R) as I. pose proof (iv_cbits _ I) as ST.
  pose proof (created_cfg_ok _ (iv_created _ I)) as K. pose proof (ok_pcf _ K) as PC.
  assert (0 <= c_pool_creation_fee (w_config w) - creation_fee_protocol (w_config w)).
  { unfold creation_fee_protocol. assert (c_pool_creation_fee (w_config w) * 10 / 100 <= c_pool_creation_fee (w_config w))
      by (apply Z.div_le_upper_bound; lia). lia. }
  destruct (exec w (OPartnerCreationFee (c_fee_claimer (w_config w)) to)) as [w'|e] eqn:H1.
  - pose proof H1 as H0. exec_in H1. apply partner_cf_eff in H1; auto.
    destruct H1 as (_ & _ & B & E & S).
    eapply becomes_ok; eauto. eexists. split; [reflexivity|].
    destruct ST as [X|[X|[X|X]]]; rewrite X in *; try discriminate B; split; reflexivity.
  - eapply becomes_err; eauto. exists (p_creation_bits (w_pool w)). rewrite set_cbits_self.
    split; [reflexivity|]. split; [|reflexivity].
    destruct (Z.testbit (p_creation_bits (w_pool w)) 1) eqn:B; [reflexivity|].
    destruct (Z.eq_dec (c_pool_creation_fee (w_config w) - creation_fee_protocol (w_config w)) 0) as [Z0|Z0];
      [exact Z0|].
    pose proof (proj1 (C17_creation_fee_can_be_claimed w to 0 R) ltac:(lia) B) as X. rewrite H1 in X. discriminate.
Qed.

Lemma go_creation_protocol w s : reachable w -> permitted w s 0 ->
  becomes w (OProtocolCreationFee s)
    (fun p => exists x, p = set_creation_bits (w_pool w) x /\ Z.testbit x 0 = true
       /\ Z.testbit x 1 = Z.testbit (p_creation_bits (w_pool w)) 1).
Proof.
  intros R PE. pose proof (reachable_inv _ R) as I. pose proof (iv_cbits _ I) as ST.
  destruct (is_ok_inv _ (proj2 (C17_creation_fee_can_be_claimed w 0 s R) PE)) as (w' & H).
  pose proof H as H0. exec_in H. apply protocol_cf_eff in H; auto. cbv zeta in H.
  destruct H as (_ & E & S). eapply becomes_ok; eauto.
  destruct (Z.testbit (p_creation_bits (w_pool w)) 0) eqn:B; simpl.
  - exists (p_creation_bits (w_pool w)). rewrite set_cbits_self. auto.
  - eexists. split; [reflexivity|].
    destruct ST as [X|[X|[X|X]]]; rewrite X in *; try discriminate B; split; reflexivity.
Qed.

Lemma go_leftover w : reachable w -> p_progress (w_pool w) = 3 ->
  becomes w OLeftover (fun p => exists x, p = set_leftover (w_pool w) x
    /\ (is_fixed_supply (w_config w) = true -> x = 1)).
Proof.
  intros R P3. pose proof (reachable_inv _ R) as I. destruct (iv_flags _ I) as (_ & _ & _ & F).
  destruct (exec w OLeftover) as [w'|e] eqn:H.
  - pose proof H as H0. exec_in H. apply leftover_eff in H. destruct H as (_ & _ & _ & E & S).
    eapply becomes_ok; eauto.
  - eapply becomes_err; eauto. exists (p_leftover (w_pool w)). split; [destruct (w_pool w); reflexivity|].
    intros FX. destruct F as [F|F]; auto.
    pose proof (C17_leftover_can_be_withdrawn w R P3 FX F) as X. rewrite H in X. discriminate.
Qed.

(** The parties of a pool collect all they can: partner [pt] and creator [ct] to accounts of their
    choice, an operator for the treasury, anybody for the leftover receiver. *)
Definition everybody_collects (w : world) (pt ct operator : Z) : list op :=
  let partner := c_fee_claimer (w_config w) in
  let creator := p_creator (w_pool w) in
  [ OClaimPartner partner pt U64_MAX U64_MAX; OClaimCreator creator ct U64_MAX U64_MAX;
    OPartnerSurplus partner pt; OCreatorSurplus creator ct;
    OMigrationFee partner pt 0; OMigrationFee creator ct 1;
    OClaimProtocol operator U64_MAX U64_MAX;
    OPartnerCreationFee partner pt; OProtocolCreationFee operator;
    OLeftover ].

Lemma collected w pt ct s : reachable w -> p_progress (w_pool w) = 3 -> permitted w s 0 ->
  let w' := run w (everybody_collects w pt ct s) in
  quote_owed w' = 0 /\ base_owed w' = 0 /\ lamports_owed w' = 0 /\ settled w' = true.
Proof.
  intros R P3 PE. pose proof (reachable_inv _ R) as I.
  assert (C : c_threshold (w_config w) <= p_quote (w_pool w)).
  { destruct (Z_lt_le_dec (p_quote (w_pool w)) (c_threshold (w_config w))) as [L|L]; auto.
    apply (iv_complete _ I) in L. lia. }
  clear I. unfold everybody_collects. cbv zeta. unfold run. cbn [fold_left].
  set (c := w_config w) in *. set (p0 := w_pool w) in *.
  destruct (go_partner w pt R) as (E1 & C1 & O1 & R1). fold c in E1, C1, O1, R1. fold p0 in E1.
  set (w1 := step w (OClaimPartner (c_fee_claimer c) pt U64_MAX U64_MAX)) in *. clearbody w1.
  assert (K1 : p_creator (w_pool w1) = p_creator p0) by (rewrite E1; reflexivity).
  destruct (go_creator w1 ct R1) as (E2 & C2 & O2 & R2). rewrite K1 in *.
  set (w2 := step w1 (OClaimCreator (p_creator p0) ct U64_MAX U64_MAX)) in *. clearbody w2.
  rewrite C1 in C2. assert (T2 : c_threshold (w_config w2) <= p_quote (w_pool w2)).
  { rewrite C2, E2. simpl. rewrite E1. exact C. }
  destruct (go_partner_surplus w2 pt R2 T2) as (E3 & C3 & O3 & R3). rewrite C2 in *.
  set (w3 := step w2 (OPartnerSurplus (c_fee_claimer c) pt)) in *. clearbody w3.
  assert (T3 : c_threshold (w_config w3) <= p_quote (w_pool w3)) by (rewrite C3, E3; exact T2).
  destruct (go_creator_surplus w3 ct R3 T3) as (E4 & C4 & O4 & R4).
  assert (K3 : p_creator (w_pool w3) = p_creator p0).
  { rewrite E3. simpl. rewrite E2. simpl. exact K1. }
  rewrite K3, C3 in *.
  set (w4 := step w3 (OCreatorSurplus (p_creator p0) ct)) in *. clearbody w4.
  assert (T4 : c_threshold (w_config w4) <= p_quote (w_pool w4)) by (rewrite C4, E4; exact T3).
  destruct (go_mig_partner w4 pt R4 T4) as ((s5 & E5 & B5 & B5') & C5 & O5 & R5). rewrite C4 in *.
  set (w5 := step w4 (OMigrationFee (c_fee_claimer c) pt 0)) in *. clearbody w5.
  assert (T5 : c_threshold (w_config w5) <= p_quote (w_pool w5)) by (rewrite C5, E5; exact T4).
  destruct (go_mig_creator w5 ct R5 T5) as ((s6 & E6 & B6 & B6') & C6 & O6 & R6).
  assert (K5 : p_creator (w_pool w5) = p_creator p0).
  { rewrite E5. simpl. rewrite E4. simpl. exact K3. }
  rewrite K5, C5 in *.
  set (w6 := step w5 (OMigrationFee (p_creator p0) ct 1)) in *. clearbody w6.
  assert (T6 : c_threshold (w_config w6) <= p_quote (w_pool w6)) by (rewrite C6, E6; exact T5).
  assert (PE6 : permitted w6 s 0).
  { unfold permitted in *. rewrite O6, O5, O4, O3, O2, O1. exact PE. }
  destruct (go_protocol w6 s R6 T6 PE6) as (E7 & C7 & O7 & R7).
  set (w7 := step w6 (OClaimProtocol s U64_MAX U64_MAX)) in *. clearbody w7.
  destruct (go_creation_partner w7 pt R7) as ((s8 & E8 & B8 & B8') & C8 & O8 & R8).
  rewrite C7, C6 in *.
  set (w8 := step w7 (OPartnerCreationFee (c_fee_claimer c) pt)) in *. clearbody w8.
  assert (PE8 : permitted w8 s 0).
  { unfold permitted in *. rewrite O8, O7. exact PE6. }
  destruct (go_creation_protocol w8 s R8 PE8) as ((s9 & E9 & B9 & B9') & C9 & O9 & R9).
  set (w9 := step w8 (OProtocolCreationFee s)) in *. clearbody w9.
  assert (P9 : p_progress (w_pool w9) = 3).
  { rewrite E9. simpl. rewrite E8. simpl. rewrite E7. simpl. rewrite E6. simpl. rewrite E5. simpl.
    rewrite E4. simpl. rewrite E3. simpl. rewrite E2. simpl. rewrite E1. exact P3. }
  destruct (go_leftover w9 R9 P9) as ((x & E10 & B10) & C10 & O10 & R10).
  rewrite C9, C8 in *.
  set (w10 := step w9 OLeftover) in *. clearbody w10.
  rewrite E6 in E7. simpl in B6'. rewrite E5 in B6'. simpl in B6'. rewrite B5 in B6'.
  rewrite E5, E4, E3, E2, E1 in *.
  rewrite E8 in B9', E9. simpl in B9'. 
  rewrite E7 in *. rewrite E9 in E10.
  unfold quote_owed, base_owed, lamports_owed, settled. rewrite E10, C10. simpl. rewrite P3. simpl.
  rewrite B6, B6', B9, B9'. unfold unless at 1 2. repeat split; auto; try lia.
Qed.

Lemma total_app f l : forall w l', total f w (l ++ l') = total f w l + total f (run w l) l'.
Proof.
  induction l as [|o l IH]; intros w l'; cbn [total app]; [reflexivity|].
  rewrite IH. change (run w (o :: l)) with (run (step w o) l). lia.
Qed.

(** From any migrated pool, whatever happened before: when everybody collects, what is left in the
    pool's accounts is exactly what was given to them, plus what the migrated pool did not take.
    Nothing that anybody is entitled to stays behind. *)
Theorem C69_nothing_left_behind : forall w0 ops pt ct operator, initial w0 ->
  let w := run w0 ops in p_progress (w_pool w) = 3 -> permitted w operator 0 ->
  let w' := run w (everybody_collects w pt ct operator) in
  w_qvault w' = total quote_given w0 ops + total quote_untaken w0 ops
  /\ w_bvault w' = total base_given_late w0 ops
  /\ w_lamports w' = total sol_given w0 ops.
Proof.
  intros w0 ops pt ct s I w P PE w'.
  assert (R : reachable w) by (exists w0, ops; auto).
  destruct (collected w pt ct s R P PE) as (Q & B & L & S). fold w' in Q, B, L, S.
  assert (RU : w' = run w0 (ops ++ everybody_collects w pt ct s)).
  { unfold w', w, run. rewrite fold_left_app. reflexivity. }
  pose proof (balanced_history w0 (ops ++ everybody_collects w pt ct s) I) as [b1 b2 _ b4 _ _].
  rewrite <- RU in *. rewrite !total_app in *. fold w in b1, b2, b4.
  assert (Z : forall v, total quote_given v (everybody_collects w pt ct s) = 0
     /\ total quote_untaken v (everybody_collects w pt ct s) = 0
     /\ total sol_given v (everybody_collects w pt ct s) = 0
     /\ total base_given_late v (everybody_collects w pt ct s) = 0).
  { intros v. unfold everybody_collects. cbv zeta. cbn [total quote_given quote_untaken sol_given].
    repeat split; try reflexivity.
    unfold base_given_late. cbn [base_given].
    repeat match goal with |- context [if ?b then 0 else 0] => replace (if b then 0 else 0) with 0 by (destruct b; reflexivity) end.
    reflexivity. }
  destruct (Z w) as (Z1 & Z2 & Z3 & Z4). specialize (b4 S).
  rewrite Q, Z1, Z2 in b1. rewrite L, Z3 in b2. rewrite B, Z4 in b4. lia.
Qed.

(** ** A case *)
(** A pool that is traded, given tokens, completed, migrated (to a pool that does not take all) and
    given tokens again. *)
Definition strand_hist : list op :=
  histA1 ++ [ODonateQuote 700 12345; ODonateSol 700 77; ODonateBase 500 5] ++ histA2 ++ histA3
  ++ [ODonateBase 501 9].

Example C69_case : initial wA
  /\ all_ok wA strand_hist = true
  /\ p_progress (w_pool (run wA strand_hist)) = 3
  /\ permitted (run wA strand_hist) 88 0
  /\ total quote_given wA strand_hist = 12345
  /\ 0 < total quote_untaken wA strand_hist
  /\ total base_given_late wA strand_hist = 9
  /\ total sol_given wA strand_hist = 77
  /\ 0 < quote_owed (run wA (histA1 ++ histA2)).
Proof.
  split; [exact initialA|]. split; [vm_compute; reflexivity|]. split; [vm_compute; reflexivity|].
  split; [exists 3; split; vm_compute; reflexivity|].
  repeat split; vm_compute; reflexivity.
Qed.
Print Assumptions C69_quote_accounted.
Print Assumptions C69_base_before_migration.
Print Assumptions C69_base_after_migration.
Print Assumptions C69_sol_accounted.
Print Assumptions C69_lp_accounted.
Print Assumptions C69_untaken.
Print Assumptions C69_nothing_left_behind.
