(** * Withdrawals over histories: C20 - C23, C25, C39, C40, C46, C49, C51. *)
From Coq Require Import ZArith QArith List Bool Lia ZifyBool Lqa.
From Verif Require Import Base MathModel CurveModel FeeModel ConfigModel PoolModel TxModel
  SystemModel Spec SpecHist Lib CurveProofs CurveLoops Potential CalcProofs ConfigProofs FeeProofs
  SwapProofs InvProofs InvOps InvReach Effects Frame Bounds PropFees Only Fixtures FixturesReach.
Import ListNotations.
Open Scope Z_scope.
#[local] Arguments Z.pow : simpl never.
#[local] Arguments Z.testbit : simpl never.

Lemma inv_step w o : Inv w -> Inv (step w o).
Proof. intros I. change (step w o) with (run w [o]). apply inv_run; auto. Qed.

Lemma exec_inv w o w' : Inv w -> exec w o = Ok w' -> Inv w'.
Proof. intros I H. rewrite <- (step_ok _ _ _ H). apply inv_step; auto. Qed.

(** ** Something that a kind of instruction does once, marked by [done] *)
Section Once.
  Variable kind : op -> bool.
  Variable t : token.
  Variable done : world -> bool.
  Variable amt : world -> Z.
  Hypothesis does : forall w o w', Inv w -> exec w o = Ok w' -> kind o = true ->
    done w = false /\ done w' = true /\ paid t w o = amt w'.
  Hypothesis keeps : forall w o w', Inv w -> exec w o = Ok w' -> kind o = false ->
    done w' = done w /\ (done w = true -> amt w' = amt w).

  Lemma paid_err w o e : exec w o = Err e -> paid t w o = 0.
  Proof. intros H. unfold paid, moved. rewrite (step_err _ _ _ H), skipn_all. reflexivity. Qed.

  Lemma once_done ops : forall w, Inv w -> done w = true ->
    total (success kind) w ops = 0 /\ total (paid_by kind t) w ops = 0
    /\ done (run w ops) = true /\ amt (run w ops) = amt w.
  Proof.
    induction ops as [|o ops IH]; intros w I D; simpl; auto.
    assert (X : success kind w o = 0 /\ paid_by kind t w o = 0 /\ done (step w o) = true
                /\ amt (step w o) = amt w).
    { unfold success, paid_by. destruct (exec w o) as [w'|e] eqn:H.
      - destruct (kind o) eqn:K.
        + destruct (does _ _ _ I H K) as (D0 & _). congruence.
        + destruct (keeps _ _ _ I H K) as (D0 & A). rewrite (step_ok _ _ _ H). simpl.
          rewrite D0. auto.
      - rewrite (paid_err _ _ _ H), (step_err _ _ _ H). destruct (kind o); auto. }
    destruct X as (X1 & X2 & X3 & X4).
    destruct (IH (step w o) (inv_step _ _ I) X3) as (Y1 & Y2 & Y3 & Y4).
    rewrite X1, X2, Y1, Y2, Y3, Y4, X4. auto.
  Qed.

  Lemma once ops : forall w, Inv w -> done w = false ->
    (total (success kind) w ops = 0 /\ total (paid_by kind t) w ops = 0 /\ done (run w ops) = false)
    \/ (total (success kind) w ops = 1 /\ done (run w ops) = true
        /\ total (paid_by kind t) w ops = amt (run w ops)).
  Proof.
    induction ops as [|o ops IH]; intros w I D; simpl; auto.
    destruct (exec w o) as [w'|e] eqn:H.
    - destruct (kind o) eqn:K.
      + destruct (does _ _ _ I H K) as (_ & D' & P).
        rewrite (step_ok _ _ _ H).
        destruct (once_done ops w' (exec_inv _ _ _ I H) D') as (Y1 & Y2 & Y3 & Y4).
        right. unfold success at 1, paid_by at 1. rewrite H, K, P. simpl. rewrite Y1, Y2, Y3, Y4.
        repeat split; lia.
      + destruct (keeps _ _ _ I H K) as (D' & _). rewrite D in D'.
        rewrite (step_ok _ _ _ H). unfold success at 1 3, paid_by at 1 3. rewrite K. simpl.
        apply IH; auto. eapply exec_inv; eauto.
    - rewrite (step_err _ _ _ H). unfold success at 1 3, paid_by at 1 3.
      rewrite H, (paid_err _ _ _ H). simpl. rewrite andb_false_r.
      destruct (IH w I D) as [(A & B & C)|(A & B & C)]; [left|right];
      rewrite A, C; destruct (kind o); simpl; rewrite ?B, ?C; auto.
  Qed.
End Once.

(** ** The trading state does not change once the curve is complete *)
Lemma closed_quote w o w' : Inv w -> exec w o = Ok w' -> p_progress (w_pool w) <> 0 ->
  p_quote (w_pool w') = p_quote (w_pool w) /\ w_config w' = w_config w.
Proof.
  intros I H N. destruct (exec_frame _ _ _ I H) as (F & _).
  split; [apply (sk_quote _ _ (pm_closed _ _ (fr_pool _ _ F) N))|apply (fr_config _ _ F)].
Qed.

Lemma flag_cases z : z = 0 \/ z = 1 -> (z =? 1) = negb (z =? 0). Proof. lia. Qed.

Lemma complete_progress w : Inv w -> c_threshold (w_config w) <= p_quote (w_pool w) ->
  p_progress (w_pool w) <> 0.
Proof. intros I C X. apply (iv_complete _ I) in X. lia. Qed.

(** ** C20: the surplus *)
Definition psur_done (w : world) : bool := p_partner_surplus (w_pool w) =? 1.
Definition psur_amt (w : world) : Z := surplus_partner (w_config w) (p_quote (w_pool w)).
Definition csur_done (w : world) : bool := p_creator_surplus (w_pool w) =? 1.
Definition csur_amt (w : world) : Z := surplus_creator (w_config w) (p_quote (w_pool w)).

Lemma psur_does w o w' : Inv w -> exec w o = Ok w' -> partner_surplus_op o = true ->
  psur_done w = false /\ psur_done w' = true /\ paid TQuote w o = psur_amt w'.
Proof.
  intros I H K. destruct o; try discriminate K. pose proof H as H0.
  unfold exec in H. cbn [args_ok require bind] in H.
  apply partner_surplus_eff in H; auto. destruct H as (_ & C & Z0 & E & _).
  unfold psur_done, psur_amt, paid. rewrite (moved_eff _ _ _ _ _ H0 E), (ef_pool _ _ _ _ E),
    (ef_config _ _ _ _ E), Z0. simpl. unfold flow. simpl. repeat split; lia.
Qed.
Lemma psur_keeps w o w' : Inv w -> exec w o = Ok w' -> partner_surplus_op o = false ->
  psur_done w' = psur_done w /\ (psur_done w = true -> psur_amt w' = psur_amt w).
Proof.
  intros I H K. pose proof (exec_only _ _ _ I H) as ON. unfold psur_done, psur_amt.
  rewrite (on_psur _ _ _ ON) by (destruct o; auto). split; auto. intros D.
  assert (N : p_progress (w_pool w) <> 0).
  { intros P. destruct (iv_open _ I P) as (X & _). lia. }
  destruct (closed_quote _ _ _ I H N) as (-> & ->). auto.
Qed.
Lemma csur_does w o w' : Inv w -> exec w o = Ok w' -> creator_surplus_op o = true ->
  csur_done w = false /\ csur_done w' = true /\ paid TQuote w o = csur_amt w'.
Proof.
  intros I H K. destruct o; try discriminate K. pose proof H as H0.
  unfold exec in H. cbn [args_ok require bind] in H.
  apply creator_surplus_eff in H; auto. destruct H as (_ & C & Z0 & E & _).
  unfold csur_done, csur_amt, paid. rewrite (moved_eff _ _ _ _ _ H0 E), (ef_pool _ _ _ _ E),
    (ef_config _ _ _ _ E), Z0. simpl. unfold flow. simpl. repeat split; lia.
Qed.
Lemma csur_keeps w o w' : Inv w -> exec w o = Ok w' -> creator_surplus_op o = false ->
  csur_done w' = csur_done w /\ (csur_done w = true -> csur_amt w' = csur_amt w).
Proof.
  intros I H K. pose proof (exec_only _ _ _ I H) as ON. unfold csur_done, csur_amt.
  rewrite (on_csur _ _ _ ON) by (destruct o; auto). split; auto. intros D.
  assert (N : p_progress (w_pool w) <> 0).
  { intros P. destruct (iv_open _ I P) as (_ & X & _). lia. }
  destruct (closed_quote _ _ _ I H N) as (-> & ->). auto.
Qed.

Lemma initial_flags w : initial w ->
  p_partner_surplus (w_pool w) = 0 /\ p_creator_surplus (w_pool w) = 0
  /\ p_mig_fee_status (w_pool w) = 0 /\ p_leftover (w_pool w) = 0 /\ p_creation_bits (w_pool w) = 0
  /\ w_meta w = None /\ w_lp w = 0 /\ p_progress (w_pool w) = 0.
Proof.
  intros (c & key & creator & payer & tt' & slot & time & admins & operators & _ & _ & _ & H).
  unfold initialize_pool in H.
  do 8 (apply bind_ok in H; destruct H as (? & _ & H)). apply Ok_inj in H. subst w. simpl. auto 10.
Qed.
Lemma initial_inv w : initial w -> Inv w.
Proof. intros H. apply reachable_inv. exists w, []. auto. Qed.

(** The three shares add up to exactly the surplus, and no share is negative. *)
Theorem C20_shares_sum : forall w, reachable w ->
  c_threshold (w_config w) <= p_quote (w_pool w) ->
  let c := w_config w in let q := p_quote (w_pool w) in
  0 <= surplus_partner c q /\ 0 <= surplus_creator c q /\ 0 <= surplus_protocol c q
  /\ surplus_partner c q + surplus_creator c q + surplus_protocol c q = q - c_threshold c
  (* 80% to partner and creator, of which the creator gets the configured percentage *)
  /\ surplus_partner c q + surplus_creator c q = (q - c_threshold c) * 80 / 100
  /\ surplus_creator c q
     = (q - c_threshold c) * 80 / 100 * c_creator_trading_fee_pct c / 100.
Proof.
  intros w R C. pose proof (reachable_inv _ R) as I. cbv zeta.
  pose proof (surplus_parts _ _ (created_cfg_ok _ (iv_created _ I)) C) as (S1 & S2 & S3 & S4).
  unfold surplus_total in *. do 3 (split; [assumption|]). split; [lia|].
  unfold surplus_partner, surplus_creator, surplus_shared, surplus_total. split; [lia|reflexivity].
Qed.

(** Over any history partner and creator are paid their share never or exactly once. *)
Theorem C20_surplus_paid_once : forall w0 ops, initial w0 ->
  let w := run w0 ops in
  at_most_once partner_surplus_op TQuote w0 ops (surplus_partner (w_config w) (p_quote (w_pool w)))
  /\ at_most_once creator_surplus_op TQuote w0 ops (surplus_creator (w_config w) (p_quote (w_pool w))).
Proof.
  intros w0 ops H w. pose proof (initial_inv _ H) as I.
  destruct (initial_flags _ H) as (F1 & F2 & _).
  split.
  - destruct (once _ _ _ _ psur_does psur_keeps ops w0 I) as [(A & B & _)|(A & _ & B)];
      [unfold psur_done; rewrite F1; reflexivity|left; auto|right; auto].
  - destruct (once _ _ _ _ csur_does csur_keeps ops w0 I) as [(A & B & _)|(A & _ & B)];
      [unfold csur_done; rewrite F2; reflexivity|left; auto|right; auto].
Qed.

(** Only after completion, only on the owner's signature. *)
Theorem C20_surplus_after_completion : forall w w' s to, reachable w ->
  (exec w (OPartnerSurplus s to) = Ok w' ->
     c_threshold (w_config w) <= p_quote (w_pool w) /\ s = c_fee_claimer (w_config w))
  /\ (exec w (OCreatorSurplus s to) = Ok w' ->
     c_threshold (w_config w) <= p_quote (w_pool w) /\ s = p_creator (w_pool w)).
Proof.
  intros w w' s to R. pose proof (reachable_inv _ R) as I.
  split; intros H; unfold exec in H; cbn [args_ok require bind] in H.
  - apply partner_surplus_eff in H; auto. tauto.
  - apply creator_surplus_eff in H; auto. tauto.
Qed.

(** Rounding in many sells leaves a surplus; it is paid once to each. *)
Definition histS : list op :=
  histA1
  ++ map (fun k => swp 501 None BaseToQuote 0 (1000000007 + Z.of_nat k) 0 1700000300 plain_view)
         (seq 0 40)
  ++ [ swp 503 None QuoteToBase 1 200000000000 0 1700000900 plain_view ].
Example C20_case :
  let ops := histS ++ [OPartnerSurplus 22 22; OCreatorSurplus 44 44;
                       OPartnerSurplus 22 22; OCreatorSurplus 44 44] in
  let w := run wA histS in
  c_threshold (w_config w) <= p_quote (w_pool w)
  /\ total (success partner_surplus_op) wA ops = 1 /\ total (success creator_surplus_op) wA ops = 1
  /\ 0 < total (paid_by partner_surplus_op TQuote) wA ops
  /\ 0 < total (paid_by creator_surplus_op TQuote) wA ops.
Proof. vm_compute. repeat split; auto; discriminate. Qed.

(** ** C21: the migration fee *)
Definition pmf_done (w : world) : bool := Z.testbit (p_mig_fee_status (w_pool w)) 2.
Definition cmf_done (w : world) : bool := Z.testbit (p_mig_fee_status (w_pool w)) 1.
Definition pmf_amt (w : world) : Z := migration_fee_partner (w_config w).
Definition cmf_amt (w : world) : Z := migration_fee_creator (w_config w).

Lemma status_add w : Inv w ->
  (Z.testbit (p_mig_fee_status (w_pool w)) 2 = false ->
     Z.testbit (p_mig_fee_status (w_pool w) + 4) 1 = Z.testbit (p_mig_fee_status (w_pool w)) 1)
  /\ (Z.testbit (p_mig_fee_status (w_pool w)) 1 = false ->
     Z.testbit (p_mig_fee_status (w_pool w) + 2) 2 = Z.testbit (p_mig_fee_status (w_pool w)) 2).
Proof.
  intros I. destruct (iv_status _ I) as [X|[X|[X|X]]]; rewrite X; split; intros; try discriminate; reflexivity.
Qed.

Lemma mfee_bits w s to f w' : Inv w -> exec w (OMigrationFee s to f) = Ok w' ->
  (f = 0 /\ s = c_fee_claimer (w_config w) /\ pmf_done w = false /\ pmf_done w' = true
     /\ cmf_done w' = cmf_done w /\ paid TQuote w (OMigrationFee s to f) = pmf_amt w')
  \/ (f = 1 /\ s = p_creator (w_pool w) /\ cmf_done w = false /\ cmf_done w' = true
     /\ pmf_done w' = pmf_done w /\ paid TQuote w (OMigrationFee s to f) = cmf_amt w').
Proof.
  intros I H. pose proof H as H0. pose proof (exec_args _ _ _ H) as A.
  unfold exec in H. rewrite A in H. cbn [require bind] in H.
  apply migration_fee_eff in H; auto. destruct H as (_ & _ & H).
  destruct (mfs_mono _ I) as (M1 & M2). destruct (status_add _ I) as (S1 & S2).
  unfold pmf_done, cmf_done, pmf_amt, cmf_amt, paid.
  destruct H as [(-> & -> & B & E)|(-> & -> & B & E)]; [left|right];
  rewrite (moved_eff _ _ _ _ _ H0 E), (ef_pool _ _ _ _ E), (ef_config _ _ _ _ E);
  cbn [p_mig_fee_status set_mig_fee_status]; simpl; unfold flow; simpl.
  - destruct (M1 B). rewrite (S1 B). repeat split; auto; lia.
  - destruct (M2 B). rewrite (S2 B). repeat split; auto; lia.
Qed.

Lemma pmf_does w o w' : Inv w -> exec w o = Ok w' -> partner_migration_fee_op o = true ->
  pmf_done w = false /\ pmf_done w' = true /\ paid TQuote w o = pmf_amt w'.
Proof.
  intros I H K. destruct o; try discriminate K. simpl in K.
  destruct (mfee_bits _ _ _ _ _ I H) as [(-> & _ & A & B & _ & C)|(-> & _)]; [auto|discriminate].
Qed.
Lemma pmf_keeps w o w' : Inv w -> exec w o = Ok w' -> partner_migration_fee_op o = false ->
  pmf_done w' = pmf_done w /\ (pmf_done w = true -> pmf_amt w' = pmf_amt w).
Proof.
  intros I H K. destruct (exec_frame _ _ _ I H) as (F & _). unfold pmf_amt.
  rewrite (fr_config _ _ F). split; auto. destruct (is_mfee o) eqn:M.
  - destruct o; try discriminate M. simpl in K.
    destruct (mfee_bits _ _ _ _ _ I H) as [(-> & _)|(-> & _ & _ & _ & D & _)]; [discriminate|auto].
  - unfold pmf_done. rewrite (on_mfee _ _ _ (exec_only _ _ _ I H) M). auto.
Qed.
Lemma cmf_does w o w' : Inv w -> exec w o = Ok w' -> creator_migration_fee_op o = true ->
  cmf_done w = false /\ cmf_done w' = true /\ paid TQuote w o = cmf_amt w'.
Proof.
  intros I H K. destruct o; try discriminate K. simpl in K.
  destruct (mfee_bits _ _ _ _ _ I H) as [(-> & _)|(-> & _ & A & B & _ & C)]; [discriminate|auto].
Qed.
Lemma cmf_keeps w o w' : Inv w -> exec w o = Ok w' -> creator_migration_fee_op o = false ->
  cmf_done w' = cmf_done w /\ (cmf_done w = true -> cmf_amt w' = cmf_amt w).
Proof.
  intros I H K. destruct (exec_frame _ _ _ I H) as (F & _). unfold cmf_amt.
  rewrite (fr_config _ _ F). split; auto. destruct (is_mfee o) eqn:M.
  - destruct o; try discriminate M. simpl in K.
    destruct (mfee_bits _ _ _ _ _ I H) as [(-> & _ & _ & _ & D & _)|(-> & _)]; [auto|discriminate].
  - unfold cmf_done. rewrite (on_mfee _ _ _ (exec_only _ _ _ I H) M). auto.
Qed.

(** The two shares add up to the fee, the configured percentage of the threshold. *)
Theorem C21_shares_sum : forall w, reachable w ->
  let c := w_config w in
  0 <= migration_fee_partner c /\ 0 <= migration_fee_creator c
  /\ migration_fee_partner c + migration_fee_creator c = c_threshold c * c_migration_fee_pct c / 100
  /\ migration_fee_creator c
     = c_threshold c * c_migration_fee_pct c / 100 * c_creator_migration_fee_pct c / 100
  /\ c_threshold c * c_migration_fee_pct c / 100 < c_threshold c.
Proof.
  intros w R c. pose proof (created_cfg_ok _ (iv_created _ (reachable_inv _ R))) as K. fold c in K.
  pose proof (mig_fee_parts _ K) as (M1 & M2 & M3 & M4 & M5).
  repeat split; auto.
Qed.

(** Quote sent to the migrated pool + the protocol's cut + the migration fee = the threshold. (A
    DAMM v2 pool may take less than it is offered; what it leaves stays in the vault.) *)
Theorem C21_migration_quote : forall w w', reachable w ->
  (forall ok lp, exec w (OMigrateV1 ok lp) = Ok w' ->
     paid TQuote w (OMigrateV1 ok lp) + p_mig_quote_fee (w_pool w')
       + (migration_fee_partner (w_config w) + migration_fee_creator (w_config w))
     = c_threshold (w_config w))
  /\ (forall x now, exec w (OMigrateV2 x now) = Ok w' ->
     paid TQuote w (OMigrateV2 x now) + p_mig_quote_fee (w_pool w')
       + (migration_fee_partner (w_config w) + migration_fee_creator (w_config w))
     <= c_threshold (w_config w)).
Proof.
  intros w w' R. pose proof (reachable_inv _ R) as I.
  pose proof (mig_fee_parts _ (created_cfg_ok _ (iv_created _ I))) as (_ & _ & _ & MS & _).
  split.
  - intros ok lp H. pose proof H as H0. pose proof (exec_args _ _ _ H) as A.
    unfold exec in H. rewrite A in H. cbn [require bind] in H. apply migrate_v1_eff in H.
    destruct H as (m & m' & fb & fq & eb & eq & b & mb & _ & P2 & _ & _ & S & E & _).
    apply (split_ok _ _ _ _ _ _ I) in S. destruct S as (ib & iq & S1 & S2 & S3 & S4 & S5 & _).
    unfold paid. rewrite (moved_eff _ _ _ _ _ H0 E), (ef_pool _ _ _ _ E), net_app.
    assert (NB : net TQuote (burned b) = 0) by (unfold burned; destruct (_ <? _); reflexivity).
    rewrite NB. unfold migrated_pool. simpl. unfold flow. simpl. clear - S2 S5 MS. lia.
  - intros x now H. pose proof H as H0. pose proof (exec_args _ _ _ H) as A.
    unfold exec in H. rewrite A in H. cbn [require bind] in H. apply migrate_v2_eff in H.
    destruct H as (fb & fq & eb & eq & l2 & b & mb & h & _ & P2 & _ & S & L2 & _ & D1 & E & _).
    apply (split_ok _ _ _ _ _ _ I) in S. destruct S as (ib & iq & S1 & S2 & S3 & S4 & S5 & _).
    unfold paid. rewrite (moved_eff _ _ _ _ _ H0 E), (ef_pool _ _ _ _ E), !net_app.
    assert (NB : net TQuote (burned b) = 0) by (unfold burned; destruct (_ <? _); reflexivity).
    assert (NL : - net TQuote l2 + x_d1q x <= eq).
    { destruct L2 as [-> |(-> & _ & _ & _ & Q)]; simpl; unfold flow; simpl; lia. }
    rewrite NB. unfold migrated_pool. simpl. unfold flow. simpl. clear - S2 S5 MS NL. lia.
Qed.

Theorem C21_migration_fee_paid_once : forall w0 ops, initial w0 ->
  let w := run w0 ops in
  at_most_once partner_migration_fee_op TQuote w0 ops (migration_fee_partner (w_config w))
  /\ at_most_once creator_migration_fee_op TQuote w0 ops (migration_fee_creator (w_config w)).
Proof.
  intros w0 ops H w. pose proof (initial_inv _ H) as I.
  destruct (initial_flags _ H) as (_ & _ & F & _).
  split.
  - destruct (once _ _ _ _ pmf_does pmf_keeps ops w0 I) as [(A & B & _)|(A & _ & B)];
      [unfold pmf_done; rewrite F; reflexivity|left; auto|right; auto].
  - destruct (once _ _ _ _ cmf_does cmf_keeps ops w0 I) as [(A & B & _)|(A & _ & B)];
      [unfold cmf_done; rewrite F; reflexivity|left; auto|right; auto].
Qed.

(** Only after completion; flag 0 is the partner's share, flag 1 the creator's. *)
Theorem C21_migration_fee_after_completion : forall w w' s to f, reachable w ->
  exec w (OMigrationFee s to f) = Ok w' ->
  c_threshold (w_config w) <= p_quote (w_pool w)
  /\ (f = 0 /\ s = c_fee_claimer (w_config w) \/ f = 1 /\ s = p_creator (w_pool w)).
Proof.
  intros w w' s to f R H. pose proof (reachable_inv _ R) as I.
  pose proof (exec_args _ _ _ H) as A. pose proof H as H0.
  unfold exec in H. rewrite A in H. cbn [require bind] in H.
  apply migration_fee_eff in H; auto. destruct H as (C & _ & [(X & Y & _)|(X & Y & _)]); auto.
Qed.

Example C21_case :
  let ops := histA1 ++ histA2 ++ histA3 ++ [OMigrationFee 22 22 0; OMigrationFee 45 45 1] in
  total (success partner_migration_fee_op) wA ops = 1
  /\ total (success creator_migration_fee_op) wA ops = 1
  /\ total (success migrate_op) wA ops = 1
  /\ total (paid_by partner_migration_fee_op TQuote) wA ops = 6000000000
  /\ total (paid_by creator_migration_fee_op TQuote) wA ops = 4000000000.
Proof. vm_compute. repeat split; reflexivity. Qed.

(** ** C22: the pool creation fee *)
Definition pcf_done (w : world) : bool := Z.testbit (p_creation_bits (w_pool w)) 1.
Definition prcf_done (w : world) : bool := Z.testbit (p_creation_bits (w_pool w)) 0.
Definition pcf_amt (w : world) : Z :=
  c_pool_creation_fee (w_config w) - creation_fee_protocol (w_config w).

Lemma cbits_add w : Inv w ->
  (Z.testbit (p_creation_bits (w_pool w)) 1 = false ->
     Z.testbit (p_creation_bits (w_pool w) + 2) 0 = Z.testbit (p_creation_bits (w_pool w)) 0)
  /\ (Z.testbit (p_creation_bits (w_pool w)) 0 = false ->
     Z.testbit (p_creation_bits (w_pool w) + 1) 1 = Z.testbit (p_creation_bits (w_pool w)) 1).
Proof.
  intros I. destruct (iv_cbits _ I) as [X|[X|[X|X]]]; rewrite X; split; intros; try discriminate; reflexivity.
Qed.

Lemma pcf_does w o w' : Inv w -> exec w o = Ok w' -> partner_creation_fee_op o = true ->
  pcf_done w = false /\ pcf_done w' = true /\ paid TSol w o = pcf_amt w' /\ prcf_done w' = prcf_done w
  /\ signer_of o = Some (c_fee_claimer (w_config w)).
Proof.
  intros I H K. destruct o; try discriminate K. pose proof H as H0.
  unfold exec in H. cbn [args_ok require bind] in H.
  apply partner_cf_eff in H; auto. cbv zeta in H. destruct H as (SS & C & B & E & _).
  destruct (cb_mono _ I) as (M1 & _). destruct (cbits_add _ I) as (S1 & _). destruct (M1 B).
  unfold pcf_done, prcf_done, pcf_amt, paid. rewrite (moved_eff _ _ _ _ _ H0 E), (ef_pool _ _ _ _ E),
    (ef_config _ _ _ _ E). cbn [p_creation_bits set_creation_bits]. rewrite (S1 B).
  simpl. unfold flow. simpl. subst signer. repeat split; auto; lia.
Qed.

Lemma prcf_step w o w' : Inv w -> exec w o = Ok w' -> protocol_creation_fee_op o = true ->
  prcf_done w' = true /\ pcf_done w' = pcf_done w
  /\ paid TSol w o = unless (prcf_done w) (creation_fee_protocol (w_config w))
  /\ permitted w (match signer_of o with Some s => s | None => 0 end) 0.
Proof.
  intros I H K. destruct o; try discriminate K. pose proof H as H0.
  unfold exec in H. cbn [args_ok require bind] in H.
  apply protocol_cf_eff in H; auto. cbv zeta in H. destruct H as (PE & E & _).
  destruct (cb_mono _ I) as (_ & M1). destruct (cbits_add _ I) as (_ & S1).
  assert (NN : 0 <= creation_fee_protocol (w_config w)).
  { unfold creation_fee_protocol. pose proof (ok_pcf _ (created_cfg_ok _ (iv_created _ I))).
    apply div_nonneg; lia. }
  unfold pcf_done, prcf_done, paid. rewrite (moved_eff _ _ _ _ _ H0 E), (ef_pool _ _ _ _ E).
  destruct (Z.testbit (p_creation_bits (w_pool w)) 0) eqn:B; cbn [negb].
  - rewrite B. simpl. auto.
  - destruct (M1 eq_refl) as (M & _). cbn [p_creation_bits set_creation_bits]. rewrite M, (S1 eq_refl).
    unfold unless. split; [auto|split; [auto|split; [|exact PE]]].
    clear - NN. set (x := creation_fee_protocol _) in *. clearbody x. destruct (0 <? x) eqn:Z0; simpl; unfold flow; simpl; lia.
Qed.

Lemma creation_keeps w o w' : Inv w -> exec w o = Ok w' ->
  (partner_creation_fee_op o = false -> pcf_done w' = pcf_done w)
  /\ (protocol_creation_fee_op o = false -> prcf_done w' = prcf_done w)
  /\ w_config w' = w_config w.
Proof.
  intros I H. destruct (exec_frame _ _ _ I H) as (F & _).
  split; [|split; [|apply (fr_config _ _ F)]]; intros K.
  - destruct (protocol_creation_fee_op o) eqn:Q.
    + apply (prcf_step _ _ _ I H Q).
    + unfold pcf_done. rewrite (on_cbits _ _ _ (exec_only _ _ _ I H)); auto; destruct o; auto.
  - destruct (partner_creation_fee_op o) eqn:Q.
    + apply (pcf_does _ _ _ I H Q).
    + unfold prcf_done. rewrite (on_cbits _ _ _ (exec_only _ _ _ I H)); auto; destruct o; auto.
Qed.

Lemma prcf_total ops : forall w, Inv w ->
  total (paid_by protocol_creation_fee_op TSol) w ops
  = (if prcf_done (run w ops) then unless (prcf_done w) (creation_fee_protocol (w_config w)) else 0)
  /\ (prcf_done w = true -> prcf_done (run w ops) = true).
Proof.
  induction ops as [|o ops IH]; intros w I; simpl.
  - destruct (prcf_done w); auto.
  - destruct (IH _ (inv_step w o I)) as (E & M). rewrite E. clear IH E. unfold paid_by.
    destruct (exec w o) as [w'|e] eqn:H.
    + rewrite (step_ok _ _ _ H) in *. destruct (creation_keeps _ _ _ I H) as (_ & KP & KC). rewrite KC.
      destruct (protocol_creation_fee_op o) eqn:K.
      * destruct (prcf_step _ _ _ I H K) as (D & _ & P & _). rewrite P, D, (M D). simpl. split; [lia|auto].
      * rewrite (KP eq_refl) in *. split; [reflexivity|auto].
    + rewrite (step_err _ _ _ H) in *. unfold paid, moved. rewrite (step_err _ _ _ H), skipn_all. simpl.
      destruct (protocol_creation_fee_op o); auto.
Qed.

(** Floor 10% to the protocol, the rest to the partner; each paid at most once in any history; the
    pool account always keeps its rent-exempt minimum and what is still owed. *)
Theorem C22_creation_fee_paid_once : forall w0 ops, initial w0 ->
  let w := run w0 ops in
  let fee := c_pool_creation_fee (w_config w0) in
  w_config w = w_config w0
  /\ at_most_once partner_creation_fee_op TSol w0 ops (fee - fee * 10 / 100)
  /\ (total (paid_by protocol_creation_fee_op TSol) w0 ops = 0
      \/ total (paid_by protocol_creation_fee_op TSol) w0 ops = fee * 10 / 100).
Proof.
  intros w0 ops H w fee. pose proof (initial_inv _ H) as I.
  destruct (initial_flags _ H) as (_ & _ & _ & _ & F & _).
  pose proof (fr_config _ _ (run_frame ops w0 I)) as CF. fold w in CF.
  split; [exact CF|]. split.
  - assert (DD : forall w o w', Inv w -> exec w o = Ok w' -> partner_creation_fee_op o = true ->
      pcf_done w = false /\ pcf_done w' = true /\ paid TSol w o = pcf_amt w').
    { intros w1 o w2 I1 X K. destruct (pcf_does _ _ _ I1 X K) as (A & B & C & _). auto. }
    assert (KK : forall w o w', Inv w -> exec w o = Ok w' -> partner_creation_fee_op o = false ->
      pcf_done w' = pcf_done w /\ (pcf_done w = true -> pcf_amt w' = pcf_amt w)).
    { intros w1 o w2 I1 X K. destruct (creation_keeps _ _ _ I1 X) as (A & _ & C).
      unfold pcf_amt. rewrite C. auto. }
    destruct (once _ _ _ _ DD KK ops w0 I) as [(A & B & _)|(A & _ & B)];
      [unfold pcf_done; rewrite F; reflexivity|left; auto|right].
    split; auto. rewrite B. fold w. unfold pcf_amt, creation_fee_protocol. rewrite CF. reflexivity.
  - destruct (prcf_total ops w0 I) as (E & _). rewrite E.
    replace (prcf_done w0) with false by (unfold prcf_done; rewrite F; reflexivity). unfold unless.
    fold w. destruct (prcf_done w); [right; reflexivity|left; reflexivity].
Qed.

Theorem C22_creation_fee_access : forall w w' o, reachable w -> exec w o = Ok w' ->
  match o with
  | OPartnerCreationFee s _ => s = c_fee_claimer (w_config w)
  | OProtocolCreationFee s => permitted w s 0
  | _ => w_lamports w <= w_lamports w'
  end.
Proof.
  intros w w' o R H. pose proof (reachable_inv _ R) as I.
  assert (S : match o with OPartnerCreationFee _ _ | OProtocolCreationFee _ => True
     | _ => w_lamports w <= w_lamports w' end).
  { pose proof (exec_args _ _ _ H) as A. pose proof H as H0.
    destruct o; try exact Logic.I; try (unfold exec in H; rewrite A in H; cbn [require bind] in H).
    - destruct (swap_eff _ _ _ I H0) as (fm & r & num & fee & gross & pf & cf & cur & p1 & SE & _ & _ & E & _).
      rewrite (ef_sol _ _ _ _ E). assert (N : net TSol (swap_log a fm r) = 0).
      { clear. unfold swap_log, fee_token. destruct (sa_dir a), (sa_referral a), (fm_on_base fm); reflexivity. }
      lia.
    - apply partner_eff in H. destruct H as (_ & E & _). rewrite (ef_sol _ _ _ _ E). simpl. unfold flow. simpl. lia.
    - apply creator_eff in H. destruct H as (_ & E & _). rewrite (ef_sol _ _ _ _ E). simpl. unfold flow. simpl. lia.
    - simpl in A. apply andb_true_iff in A. destruct A as (A1 & A2). apply u64b_ok in A1, A2.
      destruct A1 as (A1 & _), A2 as (A2 & _).
      apply (protocol_eff _ _ _ _ _ I A1 A2) in H. cbv zeta in H. destruct H as (_ & p' & E & _).
      rewrite (ef_sol _ _ _ _ E), net_app. destruct (0 <? _), (0 <? _); simpl; unfold flow; simpl; lia.
    - simpl in A. apply u64b_ok in A. destruct A as (A & _).
      apply (zap_eff _ _ _ _ _ _ _ I A) in H. cbv zeta in H. destruct H as (_ & _ & _ & p' & E & _).
      rewrite (ef_sol _ _ _ _ E). destruct base; simpl; unfold flow; simpl; lia.
    - apply partner_surplus_eff in H; auto. destruct H as (_ & _ & _ & E & _). rewrite (ef_sol _ _ _ _ E). simpl. unfold flow. simpl. lia.
    - apply creator_surplus_eff in H; auto. destruct H as (_ & _ & _ & E & _). rewrite (ef_sol _ _ _ _ E). simpl. unfold flow. simpl. lia.
    - apply migration_fee_eff in H; auto. destruct H as (_ & _ & [(_ & _ & _ & E)|(_ & _ & _ & E)]);
      rewrite (ef_sol _ _ _ _ E); simpl; unfold flow; simpl; lia.
    - apply leftover_eff in H; auto. destruct H as (_ & _ & _ & E & _). rewrite (ef_sol _ _ _ _ E). simpl. unfold flow. simpl. lia.
    - apply transfer_creator_eff in H. destruct H as (_ & _ & _ & _ & E & _). rewrite (ef_sol _ _ _ _ E). simpl. lia.
    - apply locker_eff in H. destruct H as (_ & E & _). rewrite (ef_sol _ _ _ _ E). simpl. unfold flow. simpl. lia.
    - apply metadata_eff in H. destruct H as (_ & _ & E & _). rewrite (ef_sol _ _ _ _ E). simpl. lia.
    - apply migrate_v1_eff in H.
      destruct H as (m & m' & fb & fq & eb & eq & b & mb & _ & _ & _ & _ & _ & E & _).
      rewrite (ef_sol _ _ _ _ E), net_app. unfold burned. destruct (_ <? _); simpl; unfold flow; simpl; lia.
    - apply migrate_v2_eff in H.
      destruct H as (fb & fq & eb & eq & l2 & b & mb & h & _ & _ & _ & _ & L2 & _ & _ & E & _).
      rewrite (ef_sol _ _ _ _ E), !net_app. clear - L2. destruct L2 as [-> |(-> & _)]; unfold burned; destruct (_ <? _); simpl; unfold flow; simpl; lia.
    - apply lock_lp_eff in H. destruct H as (m & m' & a & _ & _ & _ & _ & _ & _ & _ & _ & E & _).
      rewrite (ef_sol _ _ _ _ E). simpl. unfold flow. simpl. lia.
    - apply claim_lp_eff in H. destruct H as (m & m' & a & _ & _ & _ & _ & _ & _ & _ & _ & E & _).
      rewrite (ef_sol _ _ _ _ E). simpl. unfold flow. simpl. lia.
    - unfold create_operator in H. apply bind_ok in H. destruct H as (u & _ & H).
      apply bind_ok in H. destruct H as (u1 & _ & H). apply bind_ok in H. destruct H as (u2 & _ & H).
      apply Ok_inj in H. subst w'. simpl. lia.
    - unfold close_operator in H. apply bind_ok in H. destruct H as (u & _ & H).
      apply bind_ok in H. destruct H as (u1 & _ & H). apply Ok_inj in H. subst w'. simpl. lia.
    - apply recv_base_eff in H. destruct H as (E & _). rewrite (ef_sol _ _ _ _ E). simpl. unfold flow. simpl. lia.
    - apply recv_quote_eff in H. destruct H as (E & _). rewrite (ef_sol _ _ _ _ E). simpl. unfold flow. simpl. lia.
    - apply Ok_inj in H. subst w'. simpl in *. apply u64b_ok in A. unfold u64ok in A. lia.
    - apply bind_ok in H. destruct H as (u & _ & H). apply bind_ok in H. destruct H as (t & _ & H).
      apply Ok_inj in H. subst w'. simpl. lia.
    - apply bind_ok in H. destruct H as (u & _ & H). apply Ok_inj in H. subst w'. simpl. lia. }
  destruct o; try exact S.
  - destruct (pcf_does _ _ _ I H eq_refl) as (_ & _ & _ & _ & X). simpl in X. congruence.
  - destruct (prcf_step _ _ _ I H eq_refl) as (_ & _ & _ & X). exact X.
Qed.

(** [w_lamports] counts the lamports above the rent-exempt minimum. *)
Theorem C22_rent_kept : forall w, reachable w -> 0 <= lamports_owed w <= w_lamports w.
Proof.
  intros w R. pose proof (reachable_inv _ R) as I. split; [|apply (iv_lamports _ I)].
  pose proof (ok_pcf _ (created_cfg_ok _ (iv_created _ I))).
  assert (0 <= creation_fee_protocol (w_config w) <= c_pool_creation_fee (w_config w)).
  { unfold creation_fee_protocol. split; [apply div_nonneg; lia|]. apply Z.div_le_upper_bound; lia. }
  unfold lamports_owed, unless. destruct (Z.testbit _ 0), (Z.testbit _ 1); lia.
Qed.

Example C22_case :
  let ops := histA1 ++ histA2 ++ histA3 ++ [OPartnerCreationFee 22 22; OProtocolCreationFee 88] in
  total (success partner_creation_fee_op) wA ops = 1
  /\ total (success protocol_creation_fee_op) wA ops = 2   (* the second pays nothing *)
  /\ total (paid_by partner_creation_fee_op TSol) wA ops = 45000000
  /\ total (paid_by protocol_creation_fee_op TSol) wA ops = 5000000.
Proof. vm_compute. repeat split; reflexivity. Qed.

(** ** C23: the leftover *)
Definition left_done (w : world) : bool := p_leftover (w_pool w) =? 1.

Theorem C23_leftover : forall w w', reachable w -> exec w OLeftover = Ok w' ->
  (* only a migrated pool of fixed supply *)
  p_progress (w_pool w) = 3 /\ is_fixed_supply (w_config w) = true
  (* paid to the configured receiver *)
  /\ moved w OLeftover = [mkTransfer TBase PPool (PKey (c_leftover_receiver (w_config w)))
                            (w_bvault w - w_bvault w')]
  /\ 0 <= w_bvault w - w_bvault w'
  (* what stays is exactly the unclaimed base fees and the protocol's cut, all still there *)
  /\ w_bvault w' = p_partner_base (w_pool w') + p_creator_base (w_pool w')
                   + p_protocol_base (w_pool w') + p_mig_base_fee (w_pool w')
  /\ (forall t, partner_fees t (w_pool w') = partner_fees t (w_pool w)
        /\ creator_fees t (w_pool w') = creator_fees t (w_pool w)
        /\ protocol_fees t (w_pool w') = protocol_fees t (w_pool w)
        /\ migration_cut t (w_pool w') = migration_cut t (w_pool w))
  /\ w_qvault w' = w_qvault w /\ w_lamports w' = w_lamports w.
Proof.
  intros w w' R H. pose proof (reachable_inv _ R) as I. pose proof H as H0.
  pose proof (iv_base _ I) as IB. unfold base_owed in IB.
  unfold exec in H. cbn [args_ok require bind] in H. apply leftover_eff in H; auto.
  destruct H as (P3 & FX & _ & E & _). rewrite P3 in IB. simpl in IB.
  pose proof (ef_base _ _ _ _ E) as EB. simpl in EB. unfold flow in EB. simpl in EB.
  rewrite (moved_eff _ _ _ _ _ H0 E).
  rewrite (ef_quote _ _ _ _ E), (ef_sol _ _ _ _ E), (ef_pool _ _ _ _ E), EB.
  split; [exact P3|]. split; [exact FX|]. split; [do 2 f_equal; lia|].
  split; [lia|]. split; [simpl; lia|]. split; [intros t; destruct t; simpl; auto|].
  simpl. unfold flow. simpl. lia.
Qed.

Theorem C23_leftover_once : forall w w' ops, reachable w -> exec w OLeftover = Ok w' ->
  is_ok (exec (run w' ops) OLeftover) = false.
Proof.
  intros w w' ops R H. pose proof (reachable_exec _ _ _ R H) as R1.
  pose proof (reachable_inv _ R) as I. pose proof (reachable_inv _ R1) as I1.
  assert (L : p_leftover (w_pool w') = 1).
  { unfold exec in H. cbn [args_ok require bind] in H. apply leftover_eff in H; auto.
    destruct H as (_ & _ & _ & E & _). rewrite (ef_pool _ _ _ _ E). reflexivity. }
  pose proof (pm_left _ _ (fr_pool _ _ (run_frame ops w' I1)) L) as L2.
  destruct (exec (run w' ops) OLeftover) as [w2|] eqn:X; [|reflexivity].
  unfold exec in X. cbn [args_ok require bind] in X. apply leftover_eff in X.
  destruct X as (_ & _ & Z0 & _). lia.
Qed.

Example C23_case :
  let w := run wA (histA1 ++ histA2 ++ firstn 5 histA3) in
  is_ok (exec w OLeftover) = true /\ 0 < paid TBase w OLeftover.
Proof. vm_compute. split; reflexivity. Qed.
Print Assumptions C20_shares_sum.
Print Assumptions C20_surplus_paid_once.
Print Assumptions C20_surplus_after_completion.
Print Assumptions C21_shares_sum.
Print Assumptions C21_migration_quote.
Print Assumptions C21_migration_fee_paid_once.
Print Assumptions C21_migration_fee_after_completion.
Print Assumptions C22_creation_fee_paid_once.
Print Assumptions C22_creation_fee_access.
Print Assumptions C22_rent_kept.
Print Assumptions C23_leftover.
Print Assumptions C23_leftover_once.
