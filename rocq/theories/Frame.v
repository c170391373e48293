(** * What no instruction can change, and what only moves one way. *)
From Coq Require Import ZArith QArith List Bool Lia ZifyBool Lqa.
From Verif Require Import Base MathModel CurveModel FeeModel ConfigModel PoolModel TxModel
  SystemModel Spec Lib CurveProofs CurveLoops Potential CalcProofs ConfigProofs FeeProofs
  SwapProofs InvProofs InvOps InvReach Effects.
Import ListNotations.
Open Scope Z_scope.
#[local] Arguments Z.pow : simpl never.
#[local] Arguments Z.testbit : simpl never.

(** The trading state of the pool. *)
Record same_market (p p' : pool) : Prop := {
  sk_price : p_price p' = p_price p;
  sk_base : p_base p' = p_base p;
  sk_quote : p_quote p' = p_quote p;
  sk_tracker : p_tracker p' = p_tracker p;
  sk_swap : p_has_swap p' = p_has_swap p;
  sk_finish : p_finish p' = p_finish p;
  sk_mpb : p_m_protocol_base p' = p_m_protocol_base p;
  sk_mpq : p_m_protocol_quote p' = p_m_protocol_quote p;
  sk_mtb : p_m_trading_base p' = p_m_trading_base p;
  sk_mtq : p_m_trading_quote p' = p_m_trading_quote p
}.
Lemma market_refl p : same_market p p. Proof. constructor; auto. Qed.
Lemma market_trans a b c : same_market a b -> same_market b c -> same_market a c.
Proof. intros [] []. constructor; congruence. Qed.

(** Completion flags and other one-way state of the pool account. *)
Record pool_mono (p p' : pool) : Prop := {
  pm_act : p_activation p' = p_activation p;
  pm_mbps : p_mig_fee_bps p' = p_mig_fee_bps p;
  pm_legacy : p_legacy_bits p' = p_legacy_bits p;
  pm_progress : p_progress p <= p_progress p';
  pm_psur : p_partner_surplus p = 1 -> p_partner_surplus p' = 1;
  pm_csur : p_creator_surplus p = 1 -> p_creator_surplus p' = 1;
  pm_prsur : p_protocol_surplus p = 1 -> p_protocol_surplus p' = 1;
  pm_left : p_leftover p = 1 -> p_leftover p' = 1;
  pm_mfs2 : Z.testbit (p_mig_fee_status p) 2 = true -> Z.testbit (p_mig_fee_status p') 2 = true;
  pm_mfs1 : Z.testbit (p_mig_fee_status p) 1 = true -> Z.testbit (p_mig_fee_status p') 1 = true;
  pm_cb0 : Z.testbit (p_creation_bits p) 0 = true -> Z.testbit (p_creation_bits p') 0 = true;
  pm_cb1 : Z.testbit (p_creation_bits p) 1 = true -> Z.testbit (p_creation_bits p') 1 = true;
  pm_mig : p_is_migrated p = 1 -> p_is_migrated p' = 1;
  pm_has : p_has_swap p = 1 -> p_has_swap p' = 1;
  pm_closed : p_progress p <> 0 -> same_market p p'
}.
Lemma pool_mono_refl p : pool_mono p p.
Proof. constructor; auto; try lia. intros. apply market_refl. Qed.
Lemma pool_mono_trans a b c : 0 <= p_progress a -> pool_mono a b -> pool_mono b c -> pool_mono a c.
Proof.
  intros Ha [a1 a2 a3 a4 a5 a6 a7 a8 a9 a10 a11 a12 a13 a14 a15]
    [b1 b2 b3 b4 b5 b6 b7 b8 b9 b10 b11 b12 b13 b14 b15].
  constructor; [congruence|congruence|congruence|clear - a4 b4; lia|auto..|].
  intros N. eapply market_trans; [apply a15; auto|]. apply b15.
  clear - N Ha a4. lia.
Qed.

Definition meta_mono (w w' : world) : Prop :=
  forall m, w_meta w = Some m -> exists m', w_meta w' = Some m' /\ m_partner m' = m_partner m
    /\ (m_creator_lock_done m = 1 -> m_creator_lock_done m' = 1)
    /\ (m_partner_lock_done m = 1 -> m_partner_lock_done m' = 1)
    /\ (m_creator_claim_done m = 1 -> m_creator_claim_done m' = 1)
    /\ (m_partner_claim_done m = 1 -> m_partner_claim_done m' = 1)
    /\ (p_progress (w_pool w) = 3 -> m_partner_locked m' = m_partner_locked m
        /\ m_partner_liq m' = m_partner_liq m /\ m_creator_locked m' = m_creator_locked m
        /\ m_creator_liq m' = m_creator_liq m).

Record frame (w w' : world) : Prop := {
  fr_key : w_key w' = w_key w;
  fr_config : w_config w' = w_config w;
  fr_log : exists l, w_log w' = w_log w ++ l
     /\ w_bvault w' = w_bvault w + net TBase l
     /\ w_qvault w' = w_qvault w + net TQuote l
     /\ w_lamports w' = w_lamports w + net TSol l;
  fr_pool : pool_mono (w_pool w) (w_pool w');
  fr_meta : meta_mono w w';
  fr_mint : w_mint_auth w' = w_mint_auth w;
  fr_update : w_update_auth w' = w_update_auth w;
  fr_admins : w_admins w' = w_admins w;
  fr_escrow : 2 <= p_progress (w_pool w) -> w_escrow w' = w_escrow w;
  fr_positions : p_progress (w_pool w) = 3 -> w_positions w' = w_positions w
}.

Lemma meta_mono_refl w w' : w_meta w' = w_meta w -> meta_mono w w'.
Proof. intros E m M. exists m. rewrite E. auto 10. Qed.

Lemma frame_refl w : frame w w.
Proof.
  constructor; auto.
  - exists []. rewrite app_nil_r. simpl. repeat split; auto; lia.
  - apply pool_mono_refl.
  - apply meta_mono_refl. reflexivity.
Qed.

Lemma frame_trans a b c : 0 <= p_progress (w_pool a) <= 3 -> p_progress (w_pool b) <= 3 ->
  frame a b -> frame b c -> frame a c.
Proof.
  intros Pa Pb [k1 c1 l1 p1 m1 mi1 u1 ad1 e1 po1] [k2 c2 l2 p2 m2 mi2 u2 ad2 e2 po2].
  pose proof (pm_progress _ _ p1) as PP.
  constructor; try congruence.
  - destruct l1 as (x & X1 & X2 & X3 & X4), l2 as (y & Y1 & Y2 & Y3 & Y4). exists (x ++ y).
    rewrite !net_app, app_assoc, <- X1, Y1. repeat split; auto; lia.
  - eapply pool_mono_trans; eauto. lia.
  - intros m M. destruct (m1 m M) as (m' & M' & Q1 & Q2 & Q3 & Q4 & Q5 & Q6).
    destruct (m2 m' M') as (m'' & M'' & R1 & R2 & R3 & R4 & R5 & R6).
    exists m''. split; auto. split; [congruence|].
    do 4 (split; [auto|]). intros X. destruct (Q6 X) as (Z1 & Z2 & Z3 & Z4).
    destruct (R6 ltac:(lia)) as (Y1 & Y2 & Y3 & Y4). repeat split; congruence.
  - intros X. rewrite e2, e1; auto; lia.
  - intros X. rewrite po2, po1; auto; lia.
Qed.

(** From an exact effect on the first group and an unchanged second group. *)
Lemma eff_frame w w' p l : eff w w' p l -> rest_same w w' -> pool_mono (w_pool w) p -> frame w w'.
Proof.
  intros [] [] M. constructor; auto.
  - exists l. auto.
  - rewrite ef_pool. exact M.
  - apply meta_mono_refl. auto.
Qed.

Ltac pm := constructor;
  first [reflexivity | exact (fun h => h) | apply Z.le_refl | assumption
        | intros _; reflexivity | intros _; assumption | intros _; constructor; reflexivity
        | match goal with X : p_progress ?p = _ |- p_progress ?p <= _ =>
            rewrite X; simpl; clear; lia end ].

Lemma mfs_mono w : Inv w ->
  (Z.testbit (p_mig_fee_status (w_pool w)) 2 = false ->
   Z.testbit (p_mig_fee_status (w_pool w) + 4) 2 = true
   /\ (Z.testbit (p_mig_fee_status (w_pool w)) 1 = true ->
       Z.testbit (p_mig_fee_status (w_pool w) + 4) 1 = true))
  /\ (Z.testbit (p_mig_fee_status (w_pool w)) 1 = false ->
   Z.testbit (p_mig_fee_status (w_pool w) + 2) 1 = true
   /\ (Z.testbit (p_mig_fee_status (w_pool w)) 2 = true ->
       Z.testbit (p_mig_fee_status (w_pool w) + 2) 2 = true)).
Proof.
  intros I. destruct (iv_status _ I) as [X|[X|[X|X]]]; rewrite X; repeat split;
  intros; try discriminate; reflexivity.
Qed.
Lemma cb_mono w : Inv w ->
  (Z.testbit (p_creation_bits (w_pool w)) 1 = false ->
   Z.testbit (p_creation_bits (w_pool w) + 2) 1 = true
   /\ (Z.testbit (p_creation_bits (w_pool w)) 0 = true ->
       Z.testbit (p_creation_bits (w_pool w) + 2) 0 = true))
  /\ (Z.testbit (p_creation_bits (w_pool w)) 0 = false ->
   Z.testbit (p_creation_bits (w_pool w) + 1) 0 = true
   /\ (Z.testbit (p_creation_bits (w_pool w)) 1 = true ->
       Z.testbit (p_creation_bits (w_pool w) + 1) 1 = true)).
Proof.
  intros I. destruct (iv_cbits _ I) as [X|[X|[X|X]]]; rewrite X; repeat split;
  intros; try discriminate; reflexivity.
Qed.

(** ** Swaps *)
Lemma swap_log_net a fm r : sa_referral a = None \/ True ->
  net TBase (swap_log a fm r) = base_in (sa_dir a) (sr_included r)
       - quote_in (sa_dir a) (sr_output r)
       - (match sa_referral a with Some _ => if fm_on_base fm then sr_referral r else 0 | None => 0 end)
  /\ net TQuote (swap_log a fm r) = quote_in (sa_dir a) (sr_included r)
       - base_in (sa_dir a) (sr_output r)
       - (match sa_referral a with Some _ => if fm_on_base fm then 0 else sr_referral r | None => 0 end)
  /\ net TSol (swap_log a fm r) = 0.
Proof.
  intros _. unfold swap_log, fee_token, in_token, out_token, base_in, quote_in.
  destruct (sa_dir a), (sa_referral a), (fm_on_base fm); simpl; unfold flow; simpl; lia.
Qed.

Lemma swap_eff w a w' : Inv w -> exec w (OSwap a) = Ok w' ->
  exists fm r num fee gross pf cf cur p1,
    swap_effect w w' a fm r num fee gross pf cf cur
    /\ update_pre_swap (w_config w) (w_pool w) (sa_now a) = Ok p1
    /\ process_swap (w_config w) p1 (sa_mode a) (sa_amount0 a) (sa_amount1 a) fm (sa_dir a) cur
         (first_swap_eligible (w_config w) (w_pool w) (w_key w) (is_some (sa_referral a))
            (sa_view a)) = Ok r
    /\ eff w w' (w_pool w') (swap_log a fm r) /\ rest_same w w'.
Proof.
  intros R H. pose proof (created_cfg_ok _ (iv_created _ R)) as K.
  pose proof (created_fees_ok _ (iv_created _ R)) as F.
  unfold exec in H. apply bind_ok in H. destruct H as (u & A & H). apply require_ok in A.
  simpl in A. repeat rewrite andb_true_iff in A. destruct A as (((A0 & A1) & _) & _).
  apply u64b_ok in A0, A1. destruct A0 as (A0 & _), A1 as (A1 & _).
  unfold do_swap in H. apply bind_ok in H. destruct H as ([w2 r] & S & H). apply Ok_inj in H.
  simpl in H. subst w2. apply swap_full_effect in S; auto; [|apply (iv_price _ R)].
  destruct S as (fm & num & fee & gross & pf & cf & cur & p1 & E & E1 & E2).
  exists fm, r, num, fee, gross, pf, cf, cur, p1.
  split; [exact E|]. split; [exact E1|]. split; [exact E2|].
  destruct (swap_log_net a fm r (or_intror Logic.I)) as (N1 & N2 & N3).
  pose proof (se_same _ _ _ _ _ _ _ _ _ _ _ E) as SM.
  split.
  - constructor.
    + reflexivity.
    + apply (se_log _ _ _ _ _ _ _ _ _ _ _ E).
    + rewrite SM. reflexivity.
    + rewrite SM. reflexivity.
    + rewrite (se_bvault _ _ _ _ _ _ _ _ _ _ _ E), N1. lia.
    + rewrite (se_qvault _ _ _ _ _ _ _ _ _ _ _ E), N2. lia.
    + rewrite N3, SM. simpl. lia.
  - constructor; rewrite SM; reflexivity.
Qed.

Lemma swap_mono w a w' : Inv w -> exec w (OSwap a) = Ok w' ->
  pool_mono (w_pool w) (w_pool w') /\ p_progress (w_pool w) = 0
  /\ p_creator (w_pool w') = p_creator (w_pool w)
  /\ p_has_swap (w_pool w') = 1
  /\ ((p_progress (w_pool w') = 0 /\ p_quote (w_pool w') < c_threshold (w_config w)
       /\ p_finish (w_pool w') = p_finish (w_pool w))
      \/ (c_threshold (w_config w) <= p_quote (w_pool w') /\ p_finish (w_pool w') = sa_now a
          /\ p_progress (w_pool w') = (if has_vesting (c_vesting (w_config w)) then 1 else 2))).
Proof.
  intros I H. destruct (swap_eff _ _ _ I H) as (fm & r & num & fee & gross & pf & cf & cur & p1 & E & _).
  destruct (se_pool _ _ _ _ _ _ _ _ _ _ _ E) as (p2 & AP & PG & FI & C).
  pose proof (se_open _ _ _ _ _ _ _ _ _ _ _ E) as OP.
  assert (P0 : p_progress (w_pool w) = 0) by (apply (iv_complete _ I), OP).
  destruct AP as [_ _ HS _ _ _ _ _ _ _ _ _ _ _ _ _ _ _ _ SR].
  destruct SR as [s1 s2 s3 s4 s5 s6 s7 s8 s9 s10 s11 s12 s13].
  destruct C as [(Q & ->)|(Q & _ & ->)].
  - split; [|auto 10].
    constructor; rewrite ?s2, ?s3, ?s4, ?s5, ?s6, ?s7, ?s8, ?s9, ?s10, ?s11, ?HS, ?PG; auto; try lia.
    + rewrite PG, P0. auto 10.
  - split; [|split; [exact P0|split; [exact s1|split; [exact HS|]]]].
    + constructor; simpl; rewrite ?s2, ?s3, ?s4, ?s5, ?s6, ?s7, ?s8, ?s9, ?s10, ?s11, ?HS, ?P0; auto; try lia.
      destruct (has_vesting _); unfold PostBondingCurve, LockedVesting; lia.
    + right. simpl. auto.
Qed.

(** ** Every instruction *)
Lemma exec_args w o w' : exec w o = Ok w' -> args_ok o = true.
Proof. unfold exec. intros H. apply bind_ok in H. destruct H as (u & A & _). apply require_ok in A. exact A. Qed.
Lemma exec_body w o w' : exec w o = Ok w' -> exec w o = Ok w' /\ args_ok o = true.
Proof. intros H. split; auto. eapply exec_args; eauto. Qed.

Lemma exec_frame w o w' : Inv w -> exec w o = Ok w' ->
  frame w w' /\ (match o with OSwap _ => True | _ => same_market (w_pool w) (w_pool w') end).
Proof.
  intros I H. pose proof (exec_args _ _ _ H) as A. pose proof H as H0.
  pose proof (mfs_mono _ I) as (MF1 & MF2). pose proof (cb_mono _ I) as (CB1 & CB2).
  pose proof (iv_progress _ I) as PR.
  destruct o; try (unfold exec in H; rewrite A in H; cbn [require bind] in H).
  - destruct (swap_eff _ _ _ I H0) as (fm & r & num & fee & gross & pf & cf & cur & p1 & _ & _ & _ & E & R).
    destruct (swap_mono _ _ _ I H0) as (M & _). split; auto. eapply eff_frame; eauto.
  - apply partner_eff in H. destruct H as (_ & E & R). pose proof (ef_pool _ _ _ _ E) as P.
    split; [eapply eff_frame; eauto; pm|rewrite P; constructor; reflexivity].
  - apply creator_eff in H. destruct H as (_ & E & R). pose proof (ef_pool _ _ _ _ E) as P.
    split; [eapply eff_frame; eauto; pm|rewrite P; constructor; reflexivity].
  - simpl in A. apply andb_true_iff in A. destruct A as (A1 & A2). apply u64b_ok in A1, A2.
    destruct A1 as (A1 & _), A2 as (A2 & _).
    apply (protocol_eff _ _ _ _ _ I A1 A2) in H.
    destruct H as (_ & p' & E & R & a1 & b1 & a2 & b2 & _ & _ & _ & _ & _ & _ & P').
    pose proof (ef_pool _ _ _ _ E) as P. cbv zeta in P'.
    split; [eapply eff_frame; eauto; clear MF1 MF2 CB1 CB2 PR; rewrite P'; destruct (_ && _); pm
           |rewrite P, P'; destruct (_ && _); constructor; reflexivity].
  - simpl in A. apply u64b_ok in A. destruct A as (A & _).
    apply (zap_eff _ _ _ _ _ _ _ I A) in H.
    destruct H as (_ & _ & _ & p' & E & R & _ & a1 & b1 & _ & _ & _ & P').
    pose proof (ef_pool _ _ _ _ E) as P. cbv zeta in P'.
    split; [eapply eff_frame; eauto; clear MF1 MF2 CB1 CB2 PR; rewrite P'; destruct base; [|destruct (_ && _)]; pm
           |rewrite P, P'; destruct base; [|destruct (_ && _)]; constructor; reflexivity].
  - apply partner_surplus_eff in H; auto. destruct H as (_ & _ & _ & E & R).
    pose proof (ef_pool _ _ _ _ E) as P.
    split; [eapply eff_frame; eauto; pm|rewrite P; constructor; reflexivity].
  - apply creator_surplus_eff in H; auto. destruct H as (_ & _ & _ & E & R).
    pose proof (ef_pool _ _ _ _ E) as P.
    split; [eapply eff_frame; eauto; pm|rewrite P; constructor; reflexivity].
  - apply migration_fee_eff in H; auto.
    destruct H as (_ & R & [(_ & _ & B & E)|(_ & _ & B & E)]); pose proof (ef_pool _ _ _ _ E) as P.
    + destruct (MF1 B). split; [eapply eff_frame; eauto; pm|rewrite P; constructor; reflexivity].
    + destruct (MF2 B). split; [eapply eff_frame; eauto; pm|rewrite P; constructor; reflexivity].
  - apply leftover_eff in H; auto. destruct H as (_ & _ & _ & E & R).
    pose proof (ef_pool _ _ _ _ E) as P.
    split; [eapply eff_frame; eauto; pm|rewrite P; constructor; reflexivity].
  - apply partner_cf_eff in H; auto. destruct H as (_ & _ & B & E & R).
    pose proof (ef_pool _ _ _ _ E) as P. destruct (CB1 B).
    split; [eapply eff_frame; eauto; pm|rewrite P; constructor; reflexivity].
  - apply protocol_cf_eff in H; auto. destruct H as (_ & E & R).
    pose proof (ef_pool _ _ _ _ E) as P.
    destruct (Z.testbit (p_creation_bits (w_pool w)) 0) eqn:B; cbn [negb] in *.
    + split; [eapply eff_frame; eauto; apply pool_mono_refl|rewrite P; apply market_refl].
    + destruct (CB2 eq_refl). split; [eapply eff_frame; eauto; pm|rewrite P; constructor; reflexivity].
  - apply transfer_creator_eff in H. destruct H as (_ & _ & _ & _ & E & R).
    pose proof (ef_pool _ _ _ _ E) as P.
    split; [eapply eff_frame; eauto; pm|rewrite P; constructor; reflexivity].
  - apply locker_eff in H. destruct H as (P1 & E & _ & SU & MI & UP & ME & LP & PO & AD & OP).
    destruct E. split; [|rewrite ef_pool; constructor; reflexivity].
    constructor; auto; try (clear - P3; lia); try (clear - P2; lia); try (clear - P1; lia).
    + eexists. eauto.
    + rewrite ef_pool. pm.
    + apply meta_mono_refl. auto.
  - apply metadata_eff in H. destruct H as (_ & M & E & ME & SU & MI & UP & ES & LP & PO & AD & OP).
    destruct E. split; [|rewrite ef_pool; constructor; reflexivity].
    constructor; auto; try (clear - P3; lia); try (clear - P2; lia); try (clear - P1; lia).
    + eexists. eauto.
    + rewrite ef_pool. apply pool_mono_refl.
    + intros m X. congruence.
  - apply migrate_v1_eff in H.
    destruct H as (m & m' & fb & fq & eb & eq & b & mb & _ & P2 & _ & M & _ & E & _ & _ & SU & LP & ME
      & (da & db & _ & MM) & MI & ES & UP & PO & AD & OP).
    destruct E. split; [|rewrite ef_pool; constructor; reflexivity].
    constructor; auto; try (clear - P3; lia); try (clear - P2; lia); try (clear - P1; lia).
    + eexists. eauto.
    + rewrite ef_pool. unfold migrated_pool. pm.
    + intros m0 X. rewrite M in X. inversion X; subst m0. exists m'. split; auto. subst m'. simpl.
      do 5 (split; [auto|]). clear - P2; lia.
  - apply migrate_v2_eff in H.
    destruct H as (fb & fq & eb & eq & l2 & b & mb & h & _ & P2 & _ & _ & _ & _ & _ & E & _ & _ & SU & LP & ME
      & MI & ES & UP & AD & OP).
    destruct E. split; [|rewrite ef_pool; constructor; reflexivity].
    constructor; auto; try (clear - P3; lia); try (clear - P2; lia); try (clear - P1; lia).
    + eexists. eauto.
    + rewrite ef_pool. unfold migrated_pool. pm.
    + apply meta_mono_refl. auto.
  - apply lock_lp_eff in H.
    destruct H as (m & m' & a & P3 & M & M' & MP & _ & _ & _ & _ & E & _ & SU & MI & UP & ES & PO & AD & OP).
    destruct E. split; [|rewrite ef_pool; constructor; reflexivity].
    constructor; auto; try (clear - P3; lia); try (clear - P2; lia); try (clear - P1; lia).
    + eexists. eauto.
    + rewrite ef_pool. apply pool_mono_refl.
    + intros m0 X. rewrite M in X. inversion X; subst m0. exists m'. destruct MP.
      do 6 (split; [auto|]). auto.
  - apply claim_lp_eff in H.
    destruct H as (m & m' & a & P3 & M & M' & MP & _ & _ & _ & _ & E & _ & SU & MI & UP & ES & PO & AD & OP).
    destruct E. split; [|rewrite ef_pool; constructor; reflexivity].
    constructor; auto; try (clear - P3; lia); try (clear - P2; lia); try (clear - P1; lia).
    + eexists. eauto.
    + rewrite ef_pool. apply pool_mono_refl.
    + intros m0 X. rewrite M in X. inversion X; subst m0. exists m'. destruct MP.
      do 6 (split; [auto|]). auto.
  - unfold create_operator in H. apply bind_ok in H. destruct H as (u & _ & H).
    apply bind_ok in H. destruct H as (u1 & _ & H). apply bind_ok in H. destruct H as (u2 & _ & H).
    apply Ok_inj in H. subst w'. split; [|apply market_refl].
    destruct (frame_refl w). constructor; auto.
  - unfold close_operator in H. apply bind_ok in H. destruct H as (u & _ & H).
    apply bind_ok in H. destruct H as (u1 & _ & H).
    apply Ok_inj in H. subst w'. split; [|apply market_refl].
    destruct (frame_refl w). constructor; auto.
  - apply recv_base_eff in H. destruct H as (E & R). pose proof (ef_pool _ _ _ _ E) as P.
    split; [eapply eff_frame; eauto; apply pool_mono_refl|rewrite P; apply market_refl].
  - apply recv_quote_eff in H. destruct H as (E & R). pose proof (ef_pool _ _ _ _ E) as P.
    split; [eapply eff_frame; eauto; apply pool_mono_refl|rewrite P; apply market_refl].
  - apply Ok_inj in H. subst w'. split; [|apply market_refl].
    destruct (frame_refl w). constructor; auto.
    eexists. split; [reflexivity|]. simpl. unfold flow. simpl. clear; lia.
  - apply bind_ok in H. destruct H as (u & _ & H). apply bind_ok in H. destruct H as (t & _ & H).
    apply Ok_inj in H. subst w'. split; [|apply market_refl].
    destruct (frame_refl w). constructor; auto.
    eexists. split; [reflexivity|]. simpl. unfold flow. simpl. clear; lia.
  - apply bind_ok in H. destruct H as (u & _ & H).
    apply Ok_inj in H. subst w'. split; [|apply market_refl].
    destruct (frame_refl w). constructor; auto.
    eexists. split; [reflexivity|]. simpl. unfold flow. simpl. clear; lia.
Qed.

Lemma step_frame w o : Inv w -> frame w (step w o).
Proof.
  intros I. unfold step. destruct (exec w o) eqn:E; [|apply frame_refl].
  eapply exec_frame in E; eauto. apply E.
Qed.

Lemma run_frame ops : forall w, Inv w -> frame w (run w ops).
Proof.
  induction ops as [|o ops IH]; intros w I; [apply frame_refl|].
  change (run w (o :: ops)) with (run (step w o) ops).
  pose proof (inv_step w o I) as I1.
  eapply frame_trans; [apply (iv_progress _ I)|apply (iv_progress _ I1)|apply step_frame; auto|auto].
Qed.

Lemma run_app w a b : run w (a ++ b) = run (run w a) b.
Proof. apply fold_left_app. Qed.

Lemma reachable_run w ops : reachable w -> reachable (run w ops).
Proof. intros (w0 & l & I & ->). exists w0, (l ++ ops). split; auto. symmetry. apply run_app. Qed.
Lemma reachable_exec w o w' : reachable w -> exec w o = Ok w' -> reachable w'.
Proof.
  intros R E. replace w' with (run w [o]); [apply reachable_run; auto|].
  unfold run, step. simpl. rewrite E. reflexivity.
Qed.
