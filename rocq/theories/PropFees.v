(** * Fee accounts over histories: C18, C19, C48. *)
From Coq Require Import ZArith QArith List Bool Lia ZifyBool Lqa.
From Verif Require Import Base MathModel CurveModel FeeModel ConfigModel PoolModel TxModel
  SystemModel Spec SpecHist Lib CurveProofs CurveLoops Potential CalcProofs ConfigProofs FeeProofs
  SwapProofs InvProofs InvOps InvReach Effects Frame Bounds Fixtures FixturesReach.
Import ListNotations.
Open Scope Z_scope.
#[local] Arguments Z.pow : simpl never.
#[local] Arguments Z.testbit : simpl never.

(** ** What one instruction does to the fee accounts *)
Record fees_same (p p' : pool) : Prop := {
  fs_partner : forall t, partner_fees t p' = partner_fees t p;
  fs_creator : forall t, creator_fees t p' = creator_fees t p;
  fs_protocol : forall t, protocol_fees t p' = protocol_fees t p;
  fs_cut : forall t, migration_cut t p' = migration_cut t p;
  fs_sur : p_protocol_surplus p' = p_protocol_surplus p
}.
Lemma fees_refl p : fees_same p p. Proof. constructor; auto. Qed.

Definition quiet (o : op) : bool :=
  match o with
  | OSwap _ | OClaimPartner _ _ _ _ | OClaimCreator _ _ _ _ | OClaimProtocol _ _ _
  | OZap _ _ _ _ _ | OMigrateV1 _ _ | OMigrateV2 _ _ => false
  | _ => true
  end.

Lemma quiet_fees w o w' : Inv w -> quiet o = true -> exec w o = Ok w' ->
  fees_same (w_pool w) (w_pool w').
Proof.
  intros I Q H. pose proof (exec_args _ _ _ H) as A.
  destruct o; try discriminate Q; unfold exec in H; rewrite A in H; cbn [require bind] in H.
  - apply partner_surplus_eff in H; auto. destruct H as (_ & _ & _ & E & R).
    rewrite (ef_pool _ _ _ _ E). constructor; intros; try destruct t; reflexivity.
  - apply creator_surplus_eff in H; auto. destruct H as (_ & _ & _ & E & R).
    rewrite (ef_pool _ _ _ _ E). constructor; intros; try destruct t; reflexivity.
  - apply migration_fee_eff in H; auto.
    destruct H as (_ & R & [(_ & _ & B & E)|(_ & _ & B & E)]);
    rewrite (ef_pool _ _ _ _ E); constructor; intros; try destruct t; reflexivity.
  - apply leftover_eff in H; auto. destruct H as (_ & _ & _ & E & R).
    rewrite (ef_pool _ _ _ _ E). constructor; intros; try destruct t; reflexivity.
  - apply partner_cf_eff in H; auto. destruct H as (_ & _ & B & E & R).
    rewrite (ef_pool _ _ _ _ E). constructor; intros; try destruct t; reflexivity.
  - apply protocol_cf_eff in H; auto. destruct H as (_ & E & R).
    rewrite (ef_pool _ _ _ _ E). destruct (negb _); constructor; intros; try destruct t; reflexivity.
  - apply transfer_creator_eff in H. destruct H as (_ & _ & _ & _ & E & R).
    rewrite (ef_pool _ _ _ _ E). constructor; intros; try destruct t; reflexivity.
  - apply locker_eff in H. destruct H as (P1 & E & _).
    rewrite (ef_pool _ _ _ _ E). constructor; intros; try destruct t; reflexivity.
  - apply metadata_eff in H. destruct H as (_ & M & E & _).
    rewrite (ef_pool _ _ _ _ E). apply fees_refl.
  - apply lock_lp_eff in H.
    destruct H as (m & m' & a & P3 & M & M' & MP & _ & _ & _ & _ & E & _).
    rewrite (ef_pool _ _ _ _ E). apply fees_refl.
  - apply claim_lp_eff in H.
    destruct H as (m & m' & a & P3 & M & M' & MP & _ & _ & _ & _ & E & _).
    rewrite (ef_pool _ _ _ _ E). apply fees_refl.
  - unfold create_operator in H. apply bind_ok in H. destruct H as (u & _ & H).
    apply bind_ok in H. destruct H as (u1 & _ & H). apply bind_ok in H. destruct H as (u2 & _ & H).
    apply Ok_inj in H. subst w'. apply fees_refl.
  - unfold close_operator in H. apply bind_ok in H. destruct H as (u & _ & H).
    apply bind_ok in H. destruct H as (u1 & _ & H).
    apply Ok_inj in H. subst w'. apply fees_refl.
  - apply recv_base_eff in H. destruct H as (E & R). rewrite (ef_pool _ _ _ _ E). apply fees_refl.
  - apply recv_quote_eff in H. destruct H as (E & R). rewrite (ef_pool _ _ _ _ E). apply fees_refl.
  - apply Ok_inj in H. subst w'. apply fees_refl.
  - apply bind_ok in H. destruct H as (u & _ & H). apply bind_ok in H. destruct H as (t & _ & H).
    apply Ok_inj in H. subst w'. apply fees_refl.
  - apply bind_ok in H. destruct H as (u & _ & H). apply Ok_inj in H. subst w'. apply fees_refl.
Qed.

Lemma skipn_app_exact {A} (l m : list A) : skipn (length l) (l ++ m) = m.
Proof. induction l; simpl; auto. Qed.

Lemma moved_ok w o w' l : exec w o = Ok w' -> w_log w' = w_log w ++ l -> moved w o = l.
Proof. intros H L. unfold moved, step. rewrite H, L. apply skipn_app_exact. Qed.

Lemma step_ok w o w' : exec w o = Ok w' -> step w o = w'.
Proof. intros H. unfold step. rewrite H. reflexivity. Qed.
Lemma step_err w o e : exec w o = Err e -> step w o = w.
Proof. intros H. unfold step. rewrite H. reflexivity. Qed.

Lemma receipt_swap w a w' : exec w (OSwap a) = Ok w' ->
  exists r, swap_full w a = Ok (w', r) /\ receipt w (OSwap a) = Some (a, r).
Proof.
  intros H. unfold receipt. rewrite H. pose proof (exec_args _ _ _ H) as A.
  unfold exec in H. rewrite A in H. cbn [require bind] in H. unfold do_swap in H.
  apply bind_ok in H. destruct H as ([w2 r] & S & H). apply Ok_inj in H. simpl in H. subst w2.
  exists r. rewrite S. auto.
Qed.

(** The fee accounts after a successful swap, from its receipt. *)
Lemma swap_fees w a w' : Inv w -> exec w (OSwap a) = Ok w' -> forall t,
  partner_fees t (w_pool w') = partner_fees t (w_pool w) + partner_share t w (OSwap a)
  /\ creator_fees t (w_pool w') = creator_fees t (w_pool w) + creator_share t w (OSwap a)
  /\ protocol_fees t (w_pool w') = protocol_fees t (w_pool w) + protocol_fee t w (OSwap a)
  /\ metric_trading t (w_pool w') = metric_trading t (w_pool w) + trading_fee t w (OSwap a)
  /\ metric_protocol t (w_pool w') = metric_protocol t (w_pool w) + protocol_fee t w (OSwap a)
  /\ 0 <= trading_fee t w (OSwap a) /\ 0 <= protocol_fee t w (OSwap a)
  /\ migration_cut t (w_pool w') = migration_cut t (w_pool w)
  /\ p_protocol_surplus (w_pool w') = p_protocol_surplus (w_pool w).
Proof.
  intros I H t. destruct (receipt_swap _ _ _ H) as (r & S & RC).
  pose proof (created_cfg_ok _ (iv_created _ I)) as K.
  pose proof (created_fees_ok _ (iv_created _ I)) as F.
  pose proof (exec_args _ _ _ H) as A. simpl in A. repeat rewrite andb_true_iff in A.
  destruct A as (((A0 & A1) & _) & _). apply u64b_ok in A0, A1. destruct A0 as (A0 & _), A1 as (A1 & _).
  apply swap_full_effect in S; auto; [|apply (iv_price _ I)].
  destruct S as (fm & num & fee & gross & pf & cf & cur & p1 & E & _ & _).
  destruct (se_pool _ _ _ _ _ _ _ _ _ _ _ E) as (p2 & AP & _ & _ & C).
  pose proof (se_fm _ _ _ _ _ _ _ _ _ _ _ E) as FM.
  pose proof (se_facts _ _ _ _ _ _ _ _ _ _ _ E) as SF.
  pose proof (sf_parts _ _ _ _ _ _ _ _ SF) as (T1 & T2 & T3).
  pose proof (sf_fee_nonneg _ _ _ _ _ _ _ _ SF) as FN.
  destruct AP as [SP _ _ _ _ _ _ _ _ PB PQ CB CQ RB RQ MPB MPQ MTB MTQ SR].
  destruct SR as [s1 s2 s3 s4 s5 s6 s7 s8 s9 s10 s11 s12 s13].
  assert (TN : 0 <= sr_trading r /\ 0 <= sr_protocol r).
  { rewrite T1, T3, T2. clear - FN.
    assert (0 <= fee * 20 / 100 <= fee)
      by (split; [apply div_nonneg; lia|apply Z.div_le_upper_bound; lia]).
    assert (0 <= fee * 20 / 100 * 20 / 100 <= fee * 20 / 100)
      by (split; [apply div_nonneg; lia|apply Z.div_le_upper_bound; lia]).
    destruct (fm_referral fm); lia. }
  apply split_pc_ok in SP; [|lia|apply (ok_ctf _ K)].
  destruct SP as (SP1 & SP2 & _).
  assert (SP3 : pf = sr_trading r - sr_trading r * c_creator_trading_fee_pct (w_config w) / 100) by lia.
  clear SP2 T1 T2 T3.
  unfold partner_share, creator_share, trading_fee, protocol_fee. rewrite RC.
  assert (FT : fm_on_base fm = true /\ charge_token (w_config w) (sa_dir a) = TBase
            \/ fm_on_base fm = false /\ charge_token (w_config w) (sa_dir a) = TQuote).
  { unfold get_fee_mode in FM. apply bind_ok in FM. destruct FM as (cm & CM & FM).
    apply Ok_inj in FM. unfold collect_of in CM. unfold charge_token.
    destruct (c_collect_fee_mode (w_config w) =? 0) eqn:C0.
    - apply Ok_inj in CM. subst cm. replace (_ =? 1) with false by lia.
      destruct (sa_dir a); subst fm; auto.
    - destruct (c_collect_fee_mode (w_config w) =? 1) eqn:C1; [|discriminate].
      apply Ok_inj in CM. subst cm. destruct (sa_dir a); subst fm; auto. }
  assert (MK : forall p', p' = p2 \/ p' = set_progress (set_finish p2 (sa_now a))
     (if has_vesting (c_vesting (w_config w)) then PostBondingCurve else LockedVesting) ->
     partner_fees t p' = partner_fees t p2 /\ creator_fees t p' = creator_fees t p2
     /\ protocol_fees t p' = protocol_fees t p2 /\ metric_trading t p' = metric_trading t p2
     /\ metric_protocol t p' = metric_protocol t p2 /\ migration_cut t p' = migration_cut t p2
     /\ p_protocol_surplus p' = p_protocol_surplus p2).
  { intros p' [->| ->]; [auto 10|destruct t; simpl; auto 10]. }
  destruct (MK (w_pool w')) as (-> & -> & -> & -> & -> & -> & ->).
  { destruct C as [(_ & ->)|(_ & _ & ->)]; auto. }
  assert (Z0 : 0 * c_creator_trading_fee_pct (w_config w) / 100 = 0) by reflexivity.
  destruct FT as [(FB & FT)|(FB & FT)]; rewrite FT, FB in *; destruct t; simpl; rewrite ?Z0;
  rewrite ?SP1, ?SP3 in *; repeat split; auto; try (clear - TN; lia); try (rewrite ?PB, ?PQ, ?CB, ?CQ, ?RB, ?RQ, ?MPB, ?MPQ, ?MTB, ?MTQ; lia).
Qed.

Lemma claim_amounts b x : 0 <= x -> 0 <= b -> 0 <= Z.min x b <= b /\ Z.min x b <= x. Proof. lia. Qed.

(** One instruction, successful or not. *)
Lemma fee_step w o t : Inv w -> t = TBase \/ t = TQuote ->
  partner_fees t (w_pool (step w o)) + partner_claims t w o
    = partner_fees t (w_pool w) + partner_share t w o
  /\ creator_fees t (w_pool (step w o)) + creator_claims t w o
    = creator_fees t (w_pool w) + creator_share t w o
  /\ protocol_fees t (w_pool (step w o)) + migration_cut t (w_pool (step w o)) + protocol_claims t w o
    = protocol_fees t (w_pool w) + migration_cut t (w_pool w) + protocol_fee t w o + cut t w o
      + (protocol_surplus_paid t (step w o) - protocol_surplus_paid t w)
  /\ metric_trading t (w_pool (step w o)) = metric_trading t (w_pool w) + trading_fee t w o
  /\ metric_protocol t (w_pool (step w o)) = metric_protocol t (w_pool w) + protocol_fee t w o.
Proof.
  intros I T. destruct (exec w o) as [w'|e] eqn:H.
  2:{ rewrite (step_err _ _ _ H). unfold partner_claims, creator_claims, protocol_claims, cut.
      assert (M : paid t w o = 0).
      { unfold paid, moved. rewrite (step_err _ _ _ H). rewrite skipn_all. reflexivity. }
      assert (RC : receipt w o = None) by (destruct o; auto; unfold receipt; rewrite H; auto).
      unfold partner_share, creator_share, trading_fee, protocol_fee. rewrite RC, H. cbn [is_ok].
      rewrite Z.mul_0_l, Zdiv_0_l. rewrite M. destruct o; repeat split; lia. }
  pose proof (exec_args _ _ _ H) as A.
  destruct (exec_frame _ _ _ I H) as (FR & MK).
  pose proof (fr_config _ _ FR) as CF.
  rewrite (step_ok _ _ _ H).
  assert (NS : forall a, o <> OSwap a -> True) by auto.
  destruct (quiet o) eqn:Q.
  { pose proof (quiet_fees _ _ _ I Q H) as [F1 F2 F3 F4 F5].
    assert (RC : receipt w o = None) by (destruct o; auto; discriminate Q).
    unfold partner_share, creator_share, trading_fee, protocol_fee, cut, protocol_surplus_paid.
    rewrite RC, F1, F2, F3, F4, F5, CF, Z.mul_0_l, Zdiv_0_l.
    assert (SM : same_market (w_pool w) (w_pool w')) by (destruct o; try exact MK; discriminate Q).
    destruct SM as [m1 m2 m3 m4 m5 m6 m7 m8 m9 m10].
    unfold metric_trading, metric_protocol.
    rewrite m3, m7, m8, m9, m10.
    unfold partner_claims, creator_claims, protocol_claims, cut_at_migration.
    destruct o; try discriminate Q; destruct (is_ok _); repeat split; lia. }
  destruct o; try discriminate Q.
  - (* swap *)
    destruct (swap_fees _ _ _ I H t) as (-> & -> & -> & -> & -> & _ & _ & -> & PS).
    unfold cut, protocol_surplus_paid. rewrite PS, CF. simpl cut_at_migration.
    simpl partner_claims. simpl creator_claims. simpl protocol_claims.
    assert (SS : match t with
       | TQuote => if p_protocol_surplus (w_pool w) =? 1
           then surplus_protocol (w_config w) (p_quote (w_pool w')) else 0
       | _ => 0 end = match t with
       | TQuote => if p_protocol_surplus (w_pool w) =? 1
           then surplus_protocol (w_config w) (p_quote (w_pool w)) else 0
       | _ => 0 end).
    { destruct (swap_mono _ _ _ I H) as (_ & P0 & _).
      destruct (iv_open _ I P0) as (_ & _ & -> & _). destruct t; reflexivity. }
    rewrite SS. destruct (is_ok _); repeat split; lia.
  - (* partner claim *)
    pose proof H as H0. unfold exec in H. rewrite A in H. cbn [require bind] in H.
    apply partner_eff in H. cbv zeta in H. destruct H as (_ & E & R).
    assert (M := moved_ok _ _ _ _ H0 (ef_log _ _ _ _ E)).
    unfold partner_claims, creator_claims, protocol_claims, paid, partner_share, creator_share,
      trading_fee, protocol_fee, cut, cut_at_migration, protocol_surplus_paid, metric_trading, metric_protocol.
    rewrite M, CF, (ef_pool _ _ _ _ E), H0. simpl receipt. cbv iota. rewrite Z.mul_0_l, Zdiv_0_l.
    destruct T as [-> | ->]; simpl; unfold flow; simpl; repeat split; lia.
  - (* creator claim *)
    pose proof H as H0. unfold exec in H. rewrite A in H. cbn [require bind] in H.
    apply creator_eff in H. cbv zeta in H. destruct H as (_ & E & R).
    assert (M := moved_ok _ _ _ _ H0 (ef_log _ _ _ _ E)).
    unfold partner_claims, creator_claims, protocol_claims, paid, partner_share, creator_share,
      trading_fee, protocol_fee, cut, cut_at_migration, protocol_surplus_paid, metric_trading, metric_protocol.
    rewrite M, CF, (ef_pool _ _ _ _ E), H0. simpl receipt. cbv iota. rewrite Z.mul_0_l, Zdiv_0_l.
    destruct T as [-> | ->]; simpl; unfold flow; simpl; repeat split; lia.
  - (* protocol claim *)
    pose proof H as H0. unfold exec in H. rewrite A in H. cbn [require bind] in H.
    simpl in A. apply andb_true_iff in A. destruct A as (A1 & A2). apply u64b_ok in A1, A2.
    destruct A1 as (A1 & _), A2 as (A2 & _).
    apply (protocol_eff _ _ _ _ _ I A1 A2) in H. cbv zeta in H.
    destruct H as (_ & p' & E & R & a1 & b1 & a2 & b2 & X & Y & N1 & N2 & N3 & N4 & P').
    assert (M := moved_ok _ _ _ _ H0 (ef_log _ _ _ _ E)).
    rewrite <- X, <- Y in M. 
    assert (PD : forall t', t' = TBase \/ t' = TQuote -> paid t' w (OClaimProtocol signer maxb maxq)
       = match t' with TBase => a1 + b1 | _ => a2 + b2 + (if (p_protocol_surplus (w_pool w) =? 0)
               && (c_threshold (w_config w) <=? p_quote (w_pool w))
             then surplus_protocol (w_config w) (p_quote (w_pool w)) else 0) end).
    { intros t' T'. unfold paid. rewrite M, net_app.
      assert (SN : 0 <= (if (p_protocol_surplus (w_pool w) =? 0)
               && (c_threshold (w_config w) <=? p_quote (w_pool w))
             then surplus_protocol (w_config w) (p_quote (w_pool w)) else 0)).
      { destruct (_ && _) eqn:C; [|lia]. apply andb_true_iff in C. destruct C as (_ & C).
        pose proof (surplus_parts _ (p_quote (w_pool w)) (created_cfg_ok _ (iv_created _ I)) ltac:(lia)) as (_ & _ & S3 & _).
        exact S3. }
      set (z := if _ && _ then _ else 0) in *. clearbody z. clear - T' N1 N2 N3 N4 SN.
      destruct T' as [-> | ->]; destruct (0 <? a1 + b1) eqn:B1; destruct (0 <? a2 + b2 + z) eqn:B2;
      simpl; unfold flow; simpl; lia. }
    specialize (PD t T).
    unfold partner_claims, creator_claims, protocol_claims, partner_share, creator_share,
      trading_fee, protocol_fee, cut, cut_at_migration, protocol_surplus_paid, metric_trading, metric_protocol.
    rewrite PD, CF, (ef_pool _ _ _ _ E), H0, P'. simpl receipt. cbv iota. rewrite Z.mul_0_l, Zdiv_0_l.
    pose proof (iv_flags _ I) as (_ & _ & FL & _).
    clear - T FL. destruct (p_protocol_surplus (w_pool w) =? 0) eqn:Z0; simpl andb.
    + destruct (c_threshold (w_config w) <=? p_quote (w_pool w)) eqn:Z1;
      replace (p_protocol_surplus (w_pool w) =? 1) with false by lia;
      destruct T as [-> | ->]; simpl;
      replace (p_protocol_surplus (w_pool w) =? 1) with false by lia; repeat split; lia.
    + destruct T as [-> | ->]; simpl; repeat split; lia.
  - (* zap *)
    pose proof H as H0. unfold exec in H. rewrite A in H. cbn [require bind] in H.
    simpl in A. apply u64b_ok in A. destruct A as (A1 & _).
    apply (zap_eff _ _ _ _ _ _ _ I A1) in H. cbv zeta in H.
    destruct H as (_ & _ & _ & p' & E & R & _ & a1 & b1 & X & N1 & N2 & P').
    assert (M := moved_ok _ _ _ _ H0 (ef_log _ _ _ _ E)).
    assert (PD : forall t', t' = TBase \/ t' = TQuote -> paid t' w (OZap signer maxa base allowed zap_ok)
       = match t' with TBase => if base then a1 + b1 else 0
         | _ => if base then 0 else a1 + b1 + (if (p_protocol_surplus (w_pool w) =? 0)
               && (c_threshold (w_config w) <=? p_quote (w_pool w))
             then surplus_protocol (w_config w) (p_quote (w_pool w)) else 0) end).
    { intros t' T'. unfold paid. rewrite M.
      set (z := if _ && _ then _ else 0) in *. clearbody z. clear - T' N1 N2 X.
      destruct base; rewrite <- X; destruct T' as [-> | ->];
      simpl; unfold flow; simpl; lia. }
    specialize (PD t T).
    unfold partner_claims, creator_claims, protocol_claims, partner_share, creator_share,
      trading_fee, protocol_fee, cut, cut_at_migration, protocol_surplus_paid, metric_trading, metric_protocol.
    rewrite PD, CF, (ef_pool _ _ _ _ E), H0, P'. simpl receipt. cbv iota. rewrite Z.mul_0_l, Zdiv_0_l.
    pose proof (iv_flags _ I) as (_ & _ & FL & _).
    clear - T FL. destruct base.
    { destruct T as [-> | ->]; simpl; repeat split; lia. }
    destruct (p_protocol_surplus (w_pool w) =? 0) eqn:Z0; simpl andb.
    + destruct (c_threshold (w_config w) <=? p_quote (w_pool w)) eqn:Z1;
      replace (p_protocol_surplus (w_pool w) =? 1) with false by lia;
      destruct T as [-> | ->]; simpl;
      replace (p_protocol_surplus (w_pool w) =? 1) with false by lia; repeat split; lia.
    + destruct T as [-> | ->]; simpl; repeat split; lia.
  - (* DAMM v1 *)
    pose proof H as H0. unfold exec in H. rewrite A in H. cbn [require bind] in H.
    apply migrate_v1_eff in H.
    destruct H as (m & m' & fb & fq & eb & eq & b & mb & _ & P2 & _ & M & _ & E & _).
    destruct (iv_premig _ I ltac:(lia)) as (B0 & Q0 & _).
    unfold partner_claims, creator_claims, protocol_claims, partner_share, creator_share,
      trading_fee, protocol_fee, cut, cut_at_migration, protocol_surplus_paid, metric_trading, metric_protocol.
    rewrite (step_ok _ _ _ H0), CF, (ef_pool _ _ _ _ E), H0. simpl receipt. cbv iota.
    rewrite Z.mul_0_l, Zdiv_0_l. unfold migrated_pool. clear - T B0 Q0.
    destruct T as [-> | ->]; simpl; rewrite ?B0, ?Q0; repeat split; lia.
  - (* DAMM v2 *)
    pose proof H as H0. unfold exec in H. rewrite A in H. cbn [require bind] in H.
    apply migrate_v2_eff in H.
    destruct H as (fb & fq & eb & eq & l2 & b & mb & h & _ & P2 & _ & _ & _ & _ & _ & E & _).
    destruct (iv_premig _ I ltac:(lia)) as (B0 & Q0 & _).
    unfold partner_claims, creator_claims, protocol_claims, partner_share, creator_share,
      trading_fee, protocol_fee, cut, cut_at_migration, protocol_surplus_paid, metric_trading, metric_protocol.
    rewrite (step_ok _ _ _ H0), CF, (ef_pool _ _ _ _ E), H0. simpl receipt. cbv iota.
    rewrite Z.mul_0_l, Zdiv_0_l. unfold migrated_pool. clear - T B0 Q0.
    destruct T as [-> | ->]; simpl; rewrite ?B0, ?Q0; repeat split; lia.
Qed.

Lemma run_fees ops : forall w t, Inv w -> t = TBase \/ t = TQuote ->
  partner_fees t (w_pool (run w ops)) + total (partner_claims t) w ops
    = partner_fees t (w_pool w) + total (partner_share t) w ops
  /\ creator_fees t (w_pool (run w ops)) + total (creator_claims t) w ops
    = creator_fees t (w_pool w) + total (creator_share t) w ops
  /\ protocol_fees t (w_pool (run w ops)) + migration_cut t (w_pool (run w ops))
       + total (protocol_claims t) w ops
    = protocol_fees t (w_pool w) + migration_cut t (w_pool w) + total (protocol_fee t) w ops
      + total (cut t) w ops + (protocol_surplus_paid t (run w ops) - protocol_surplus_paid t w)
  /\ metric_trading t (w_pool (run w ops)) = metric_trading t (w_pool w) + total (trading_fee t) w ops
  /\ metric_protocol t (w_pool (run w ops)) = metric_protocol t (w_pool w) + total (protocol_fee t) w ops.
Proof.
  induction ops as [|o ops IH]; intros w t I T.
  - simpl. repeat split; lia.
  - pose proof (fee_step w o t I T) as (A1 & A2 & A3 & A4 & A5).
    assert (I' : Inv (step w o)) by (change (step w o) with (run w [o]); apply inv_run; auto).
    destruct (IH (step w o) t I' T) as (B1 & B2 & B3 & B4 & B5).
    simpl run. simpl total. repeat split; lia.
Qed.

Lemma initial_fees w t : initial w ->
  partner_fees t (w_pool w) = 0 /\ creator_fees t (w_pool w) = 0 /\ protocol_fees t (w_pool w) = 0
  /\ migration_cut t (w_pool w) = 0 /\ protocol_surplus_paid t w = 0
  /\ metric_trading t (w_pool w) = 0 /\ metric_protocol t (w_pool w) = 0.
Proof.
  intros (c & key & creator & payer & tt' & slot & time & admins & operators & _ & _ & _ & H).
  unfold initialize_pool in H.
  do 8 (apply bind_ok in H; destruct H as (? & _ & H)). apply Ok_inj in H. subst w.
  unfold protocol_surplus_paid. destruct t; simpl; auto 10.
Qed.

(** ** C18: claims are bounded and conserved *)

(** At any point of any history, what a party has not yet claimed plus what it has been paid by its
    claims is exactly what swaps have earned it. *)
Theorem C18_unclaimed_plus_claimed : forall w0 ops t,
  initial w0 -> t = TBase \/ t = TQuote ->
  let w := run w0 ops in
  partner_fees t (w_pool w) + total (partner_claims t) w0 ops = total (partner_share t) w0 ops
  /\ creator_fees t (w_pool w) + total (creator_claims t) w0 ops = total (creator_share t) w0 ops
  (* the protocol also gets its cut of the migrated tokens and its share of the surplus *)
  /\ protocol_fees t (w_pool w) + migration_cut t (w_pool w) + total (protocol_claims t) w0 ops
     = total (protocol_fee t) w0 ops + total (cut t) w0 ops + protocol_surplus_paid t w.
Proof.
  intros w0 ops t H T w. pose proof (initial_fees w0 t H) as (E1 & E2 & E3 & E4 & E5 & _).
  assert (I : Inv w0) by (apply reachable_inv; exists w0, []; auto).
  destruct (run_fees ops w0 t I T) as (A1 & A2 & A3 & _). fold w in A1, A2, A3.
  repeat split; lia.
Qed.

(** A claim pays the smaller of the requested maximum and the unclaimed amount. *)
Theorem C18_claim_amounts : forall w w' s to b q, reachable w ->
  (exec w (OClaimPartner s to b q) = Ok w' ->
     paid TBase w (OClaimPartner s to b q) = Z.min b (partner_fees TBase (w_pool w))
     /\ paid TQuote w (OClaimPartner s to b q) = Z.min q (partner_fees TQuote (w_pool w))
     /\ w_log w' = w_log w ++
          [ mkTransfer TBase PPool (PKey to) (Z.min b (partner_fees TBase (w_pool w)));
            mkTransfer TQuote PPool (PKey to) (Z.min q (partner_fees TQuote (w_pool w))) ])
  /\ (exec w (OClaimCreator s to b q) = Ok w' ->
     paid TBase w (OClaimCreator s to b q) = Z.min b (creator_fees TBase (w_pool w))
     /\ paid TQuote w (OClaimCreator s to b q) = Z.min q (creator_fees TQuote (w_pool w))
     /\ w_log w' = w_log w ++
          [ mkTransfer TBase PPool (PKey to) (Z.min b (creator_fees TBase (w_pool w)));
            mkTransfer TQuote PPool (PKey to) (Z.min q (creator_fees TQuote (w_pool w))) ])
  /\ (exec w (OClaimProtocol s b q) = Ok w' ->
     paid TBase w (OClaimProtocol s b q)
       = Z.min b (protocol_fees TBase (w_pool w) + migration_cut TBase (w_pool w))
     /\ paid TQuote w (OClaimProtocol s b q)
       = Z.min q (protocol_fees TQuote (w_pool w) + migration_cut TQuote (w_pool w))
         + (protocol_surplus_paid TQuote w' - protocol_surplus_paid TQuote w)).
Proof.
  intros w w' s to b q R. pose proof (reachable_inv _ R) as I. split; [|split]; intros H.
  - pose proof H as H0. pose proof (exec_args _ _ _ H) as A.
    unfold exec in H. rewrite A in H. cbn [require bind] in H.
    apply partner_eff in H. cbv zeta in H. destruct H as (_ & E & _).
    unfold paid. rewrite (moved_ok _ _ _ _ H0 (ef_log _ _ _ _ E)), (ef_log _ _ _ _ E).
    rewrite (Z.min_comm b), (Z.min_comm q). simpl. unfold flow. simpl. split; [lia|split; [lia|reflexivity]].
  - pose proof H as H0. pose proof (exec_args _ _ _ H) as A.
    unfold exec in H. rewrite A in H. cbn [require bind] in H.
    apply creator_eff in H. cbv zeta in H. destruct H as (_ & E & _).
    unfold paid. rewrite (moved_ok _ _ _ _ H0 (ef_log _ _ _ _ E)), (ef_log _ _ _ _ E).
    rewrite (Z.min_comm b), (Z.min_comm q). simpl. unfold flow. simpl. split; [lia|split; [lia|reflexivity]].
  - pose proof (fee_step w (OClaimProtocol s b q) TBase I ltac:(auto)) as (_ & _ & B & _).
    pose proof (fee_step w (OClaimProtocol s b q) TQuote I ltac:(auto)) as (_ & _ & Q & _).
    rewrite (step_ok _ _ _ H) in B, Q.
    pose proof (exec_args _ _ _ H) as A. pose proof H as H0.
    unfold exec in H. rewrite A in H. cbn [require bind] in H.
    simpl in A. apply andb_true_iff in A. destruct A as (A1 & A2). apply u64b_ok in A1, A2.
    destruct A1 as (A1 & _), A2 as (A2 & _).
    apply (protocol_eff _ _ _ _ _ I A1 A2) in H. cbv zeta in H.
    destruct H as (_ & p' & E & _ & a1 & b1 & a2 & b2 & X & Y & _ & _ & _ & _ & P').
    assert (XB : protocol_fees TBase (w_pool w') + migration_cut TBase (w_pool w')
       = protocol_fees TBase (w_pool w) + migration_cut TBase (w_pool w) - (a1 + b1)).
    { rewrite (ef_pool _ _ _ _ E), P'. destruct (_ && _); simpl; lia. }
    assert (XQ : protocol_fees TQuote (w_pool w') + migration_cut TQuote (w_pool w')
       = protocol_fees TQuote (w_pool w) + migration_cut TQuote (w_pool w) - (a2 + b2)).
    { rewrite (ef_pool _ _ _ _ E), P'. destruct (_ && _); simpl; lia. }
    unfold cut in B, Q. rewrite H0 in B, Q. simpl in B, Q, XB, XQ. simpl protocol_fees. simpl migration_cut.
    unfold protocol_fee in B, Q. simpl in B, Q. simpl protocol_surplus_paid.
    clear - B Q X Y XB XQ. split; lia.
Qed.

(** In the history of pool A: fees of every party, some claimed, some not. *)
Example C18_case :
  initial wA
  /\ (let ops := histA1 ++ histA2 ++ histA3 in
      let w := run wA ops in
      0 < total (partner_share TQuote) wA ops /\ 0 < total (creator_share TQuote) wA ops
      /\ 0 < total (protocol_claims TQuote) wA ops /\ 0 < total (cut TQuote) wA ops
      /\ 0 < protocol_surplus_paid TQuote w).
Proof. split; [exact initialA|]. vm_compute. repeat split; reflexivity. Qed.

(** ** C19: beyond the requested maximum the protocol gets only its share of the surplus, once *)
Lemma protocol_cap : forall w w' o, reachable w ->
  exec w o = Ok w' ->
  (exists s b q, o = OClaimProtocol s b q /\ paid TBase w o <= b /\
     (paid TQuote w o <= q \/ (p_protocol_surplus (w_pool w) = 0
        /\ c_threshold (w_config w) <= p_quote (w_pool w)
        /\ paid TQuote w o <= q + surplus_protocol (w_config w) (p_quote (w_pool w)))))
  \/ (exists s m base al ok, o = OZap s m base al ok /\
     (base = true -> paid TBase w o <= m /\ paid TQuote w o = 0)
     /\ (base = false -> paid TBase w o = 0
         /\ (paid TQuote w o <= m \/ (p_protocol_surplus (w_pool w) = 0
        /\ c_threshold (w_config w) <= p_quote (w_pool w)
        /\ paid TQuote w o <= m + surplus_protocol (w_config w) (p_quote (w_pool w))))))
  \/ match o with OClaimProtocol _ _ _ | OZap _ _ _ _ _ => False | _ => True end.
Proof.
  intros w w' o R H. pose proof (reachable_inv _ R) as I.
  pose proof (exec_args _ _ _ H) as A.
  destruct o; try (right; right; exact Logic.I).
  - left. exists signer, maxb, maxq. split; auto.
    destruct (C18_claim_amounts w w' signer 0 maxb maxq R) as (_ & _ & X).
    destruct (X H) as (XB & XQ). split; [lia|].
    pose proof H as H0. unfold exec in H. rewrite A in H. cbn [require bind] in H.
    simpl in A. apply andb_true_iff in A. destruct A as (A1 & A2). apply u64b_ok in A1, A2.
    destruct A1 as (A1 & _), A2 as (A2 & _).
    apply (protocol_eff _ _ _ _ _ I A1 A2) in H. cbv zeta in H.
    destruct H as (_ & p' & E & _ & a1 & b1 & a2 & b2 & _ & _ & _ & _ & _ & _ & P').
    unfold protocol_surplus_paid in XQ. rewrite (ef_pool _ _ _ _ E), (ef_config _ _ _ _ E), P' in XQ.
    destruct ((p_protocol_surplus (w_pool w) =? 0) && (c_threshold (w_config w) <=? p_quote (w_pool w))) eqn:C.
    + simpl in XQ. apply andb_true_iff in C. destruct C as (C1 & C2). right.
      replace (p_protocol_surplus (w_pool w) =? 1) with false in XQ by lia. repeat split; lia.
    + simpl in XQ. left. lia.
  - right; left. exists signer, maxa, base, allowed, zap_ok. split; auto.
    pose proof H as H0. unfold exec in H. rewrite A in H. cbn [require bind] in H.
    simpl in A. apply u64b_ok in A. destruct A as (A1 & _).
    apply (zap_eff _ _ _ _ _ _ _ I A1) in H. cbv zeta in H.
    destruct H as (_ & _ & _ & p' & E & _ & _ & a1 & b1 & _).
    unfold paid. rewrite (moved_ok _ _ _ _ H0 (ef_log _ _ _ _ E)).
    split; intros ->; simpl; unfold flow; simpl; split; try lia.
    destruct ((p_protocol_surplus (w_pool w) =? 0) && (c_threshold (w_config w) <=? p_quote (w_pool w))) eqn:C.
    + apply andb_true_iff in C. destruct C as (C1 & C2). right. repeat split; lia.
    + left. lia.
Qed.

(** What a claim may pay in quote tokens beyond [m]: the surplus share, if it is still due. *)
Definition surplus_due (w : world) : Z :=
  if (p_protocol_surplus (w_pool w) =? 0) && (c_threshold (w_config w) <=? p_quote (w_pool w))
  then surplus_protocol (w_config w) (p_quote (w_pool w)) else 0.

Theorem C19_protocol_cap : forall w w' o, reachable w -> exec w o = Ok w' ->
  match o with
  | OClaimProtocol _ b q => paid TBase w o <= b /\ paid TQuote w o <= q + surplus_due w
  | OZap _ m true _ _ => paid TBase w o <= m /\ paid TQuote w o = 0
  | OZap _ m false _ _ => paid TBase w o = 0 /\ paid TQuote w o <= m + surplus_due w
  | _ => True
  end.
Proof.
  intros w w' o R H. pose proof (reachable_inv _ R) as I.
  assert (D : 0 <= surplus_due w /\ (p_protocol_surplus (w_pool w) = 0 ->
    c_threshold (w_config w) <= p_quote (w_pool w) ->
    surplus_due w = surplus_protocol (w_config w) (p_quote (w_pool w)))).
  { unfold surplus_due. destruct (_ && _) eqn:C.
    - apply andb_true_iff in C. destruct C as (_ & C).
      pose proof (surplus_parts _ (p_quote (w_pool w)) (created_cfg_ok _ (iv_created _ I)) ltac:(lia)) as (_ & _ & S3 & _).
      auto.
    - split; [lia|]. intros. apply andb_false_iff in C. lia. }
  destruct D as (D0 & D1).
  destruct (protocol_cap _ _ _ R H) as [(s & b & q & -> & B & X)|[(s & m & base & al & ok & -> & X1 & X2)|X]].
  - split; auto. destruct X as [X|(X1 & X2 & X)]; [lia|]. rewrite D1; auto.
  - destruct base; [auto|]. destruct (X2 eq_refl) as (B & X). split; auto.
    destruct X as [X|(X3 & X4 & X)]; [lia|]. rewrite D1; auto.
  - destruct o; try exact Logic.I; contradiction.
Qed.

(** Once a quote claim has been made after completion, no later one exceeds its maximum. *)
Theorem C19_surplus_once : forall w w' o ops o2 w2, reachable w ->
  c_threshold (w_config w) <= p_quote (w_pool w) ->
  (match o with OClaimProtocol _ _ _ => True | OZap _ _ base _ _ => base = false | _ => False end) ->
  exec w o = Ok w' ->
  exec (run w' ops) o2 = Ok w2 ->
  match o2 with
  | OClaimProtocol _ _ q => paid TQuote (run w' ops) o2 <= q
  | OZap _ m _ _ _ => paid TQuote (run w' ops) o2 <= m
  | _ => True
  end.
Proof.
  intros w w' o ops o2 w2 R C K H H2. pose proof (reachable_inv _ R) as I.
  pose proof (reachable_exec _ _ _ R H) as R1. pose proof (reachable_inv _ R1) as I1.
  assert (S : p_protocol_surplus (w_pool w') = 1).
  { pose proof (exec_args _ _ _ H) as A. pose proof (iv_flags _ I) as (_ & _ & FL & _).
    destruct o; try contradiction; unfold exec in H; rewrite A in H; cbn [require bind] in H; simpl in A.
    - apply andb_true_iff in A. destruct A as (A1 & A2). apply u64b_ok in A1, A2.
      destruct A1 as (A1 & _), A2 as (A2 & _).
      apply (protocol_eff _ _ _ _ _ I A1 A2) in H. cbv zeta in H.
      destruct H as (_ & p' & E & _ & a1 & b1 & a2 & b2 & _ & _ & _ & _ & _ & _ & P').
      rewrite (ef_pool _ _ _ _ E), P'. replace (c_threshold _ <=? _) with true by lia.
      rewrite andb_true_r. clear - FL. destruct (_ =? 0) eqn:Z0; simpl; lia.
    - apply u64b_ok in A. destruct A as (A1 & _). subst base.
      apply (zap_eff _ _ _ _ _ _ _ I A1) in H. cbv zeta in H.
      destruct H as (_ & _ & _ & p' & E & _ & _ & a1 & b1 & _ & _ & _ & P').
      rewrite (ef_pool _ _ _ _ E), P'. replace (c_threshold _ <=? _) with true by lia.
      rewrite andb_true_r. clear - FL. destruct (_ =? 0) eqn:Z0; simpl; lia. }
  pose proof (run_frame ops w' I1) as FR. pose proof (pm_prsur _ _ (fr_pool _ _ FR) S) as S2.
  pose proof (protocol_cap _ _ _ (reachable_run _ ops R1) H2) as X.
  destruct X as [(s & b & q & -> & _ & X)|[(s & m & base & al & ok & -> & X1 & X2)|X]].
  - lia.
  - destruct base; [pose proof (X1 eq_refl) as (_ & ->)|pose proof (X2 eq_refl); lia].
    pose proof (exec_args _ _ _ H2) as A. simpl in A. apply u64b_ok in A. unfold u64ok in A. lia.
  - destruct o2; try exact Logic.I; contradiction.
Qed.

(** Pool A after completion: the first claim with maximum 0 pays the surplus share; the second pays 0. *)
Example C19_case :
  let w := run wA (histA1 ++ histA2 ++ [OCreateOperator 99 88 3]) in
  let o := OClaimProtocol 88 0 0 in
  is_ok (exec w o) = true /\ c_threshold (w_config w) <= p_quote (w_pool w)
  /\ 0 < paid TQuote w o /\ is_ok (exec (step w o) o) = true /\ paid TQuote (step w o) o = 0.
Proof. vm_compute. repeat split; auto; discriminate. Qed.

(** ** C48: metrics are cumulative and exact *)
Theorem C48_metrics_exact : forall w0 ops t, initial w0 -> t = TBase \/ t = TQuote ->
  metric_trading t (w_pool (run w0 ops)) = total (trading_fee t) w0 ops
  /\ metric_protocol t (w_pool (run w0 ops)) = total (protocol_fee t) w0 ops.
Proof.
  intros w0 ops t H T. pose proof (initial_fees w0 t H) as (_ & _ & _ & _ & _ & E6 & E7).
  assert (I : Inv w0) by (apply reachable_inv; exists w0, []; auto).
  destruct (run_fees ops w0 t I T) as (_ & _ & _ & A4 & A5). lia.
Qed.

Theorem C48_metrics_never_decrease : forall w ops t, reachable w -> t = TBase \/ t = TQuote ->
  metric_trading t (w_pool w) <= metric_trading t (w_pool (run w ops))
  /\ metric_protocol t (w_pool w) <= metric_protocol t (w_pool (run w ops)).
Proof.
  intros w ops t R T. apply reachable_inv in R. revert w R.
  induction ops as [|o ops IH]; intros w I; simpl; [lia|].
  assert (I' : Inv (step w o)) by (change (step w o) with (run w [o]); apply inv_run; auto).
  specialize (IH _ I'). pose proof (fee_step w o t I T) as (_ & _ & _ & A4 & A5).
  assert (N : 0 <= trading_fee t w o /\ 0 <= protocol_fee t w o).
  { destruct (receipt w o) as [[a r]|] eqn:RC.
    - destruct o; try discriminate RC. destruct (exec w (OSwap a0)) as [w'|] eqn:H.
      + destruct (swap_fees _ _ _ I H t) as (_ & _ & _ & _ & _ & N1 & N2 & _). auto.
      + unfold receipt in RC. rewrite H in RC. discriminate.
    - unfold trading_fee, protocol_fee. rewrite RC. lia. }
  lia.
Qed.

Example C48_case :
  let ops := histA1 ++ histA2 in
  0 < total (trading_fee TQuote) wA ops /\ 0 < total (protocol_fee TQuote) wA ops.
Proof. vm_compute. split; reflexivity. Qed.

Print Assumptions C18_unclaimed_plus_claimed.
Print Assumptions C18_claim_amounts.
Print Assumptions C19_protocol_cap.
Print Assumptions C19_surplus_once.
Print Assumptions C48_metrics_exact.
Print Assumptions C48_metrics_never_decrease.
