(** * C75: what is stored is exactly what was computed. *)
From Coq Require Import ZArith QArith List Bool Lia ZifyBool Lqa.
From Verif Require Import Base MathModel CurveModel FeeModel ConfigModel PoolModel TxModel
  SystemModel MigFeeModel LayoutModel Spec Lib CurveProofs CurveLoops Potential CalcProofs
  ConfigProofs FeeProofs SwapProofs InvProofs InvOps InvReach PropSwap Effects Frame PropFees
  PropVol PropMigFee Bounds Fixtures FixturesReach.
Import ListNotations.
Open Scope Z_scope.
#[local] Arguments Z.pow : simpl never.
#[local] Arguments Z.testbit : simpl never.

(** ** Specification

    [field data off len] (PropMigFee.v) is the little-endian number in bytes [off .. off+len). *)

(** An address is 32 bytes. *)
Definition address (k : Z) : Prop := 0 <= k < 2 ^ 256.
Definition links_ok (k : pool_links) : Prop :=
  address (k_config k) /\ address (k_base_mint k) /\ address (k_base_vault k)
  /\ address (k_quote_vault k) /\ u8ok (k_pool_type k).

(** Where a client finds what in a pool account (offsets after the discriminator). *)
Definition pool_at (data : list Z) (p : pool) (k : pool_links) : Prop :=
  field data 0 8 = vt_last (p_tracker p) /\ field data 16 16 = vt_price_ref (p_tracker p)
  /\ field data 32 16 = vt_va (p_tracker p) /\ field data 48 16 = vt_vref (p_tracker p)
  /\ field data 64 32 = k_config k /\ field data 96 32 = p_creator p
  /\ field data 128 32 = k_base_mint k /\ field data 160 32 = k_base_vault k
  /\ field data 192 32 = k_quote_vault k
  /\ field data 224 8 = p_base p /\ field data 232 8 = p_quote p
  /\ field data 240 8 = p_protocol_base p /\ field data 248 8 = p_protocol_quote p
  /\ field data 256 8 = p_partner_base p /\ field data 264 8 = p_partner_quote p
  /\ field data 272 16 = p_price p /\ field data 288 8 = p_activation p
  /\ field data 296 1 = k_pool_type k /\ field data 297 1 = p_is_migrated p
  /\ field data 298 1 = p_partner_surplus p /\ field data 299 1 = p_protocol_surplus p
  /\ field data 300 1 = p_progress p /\ field data 301 1 = p_leftover p
  /\ field data 302 1 = p_creator_surplus p /\ field data 303 1 = p_mig_fee_status p
  /\ field data 304 8 = p_m_protocol_base p /\ field data 312 8 = p_m_protocol_quote p
  /\ field data 320 8 = p_m_trading_base p /\ field data 328 8 = p_m_trading_quote p
  /\ field data 336 8 = p_finish p /\ field data 344 8 = p_creator_base p
  /\ field data 352 8 = p_creator_quote p /\ field data 361 1 = p_creation_bits p
  /\ field data 362 1 = p_has_swap p /\ field data 368 2 = p_mig_fee_bps p
  /\ field data 376 8 = p_mig_base_fee p /\ field data 384 8 = p_mig_quote_fee p.

(** The same for a config account. *)
Definition config_at (data : list Z) (c : config) (flag : Z) : Prop :=
  field data 0 32 = c_quote_mint c /\ field data 32 32 = c_fee_claimer c
  /\ field data 64 32 = c_leftover_receiver c
  /\ field data 96 8 = bf_cliff (pf_base (c_fees c)) /\ field data 104 8 = bf_second (pf_base (c_fees c))
  /\ field data 112 8 = bf_third (pf_base (c_fees c)) /\ field data 120 2 = bf_first (pf_base (c_fees c))
  /\ field data 122 1 = bf_mode (pf_base (c_fees c))
  /\ field data 128 1 = df_initialized (pf_dyn (c_fees c)) /\ field data 136 4 = df_max_va (pf_dyn (c_fees c))
  /\ field data 140 4 = df_vfc (pf_dyn (c_fees c))
  /\ field data 224 1 = c_collect_fee_mode c /\ field data 225 1 = c_migration_option c
  /\ field data 226 1 = c_activation_type c /\ field data 227 1 = c_token_decimal c
  /\ field data 228 1 = 0 /\ field data 229 1 = c_token_type c /\ field data 230 1 = flag
  /\ field data 231 1 = c_partner_perm_pct c /\ field data 232 1 = c_partner_liq_pct c
  /\ field data 233 1 = c_creator_perm_pct c /\ field data 234 1 = c_creator_liq_pct c
  /\ field data 235 1 = c_migration_fee_option c /\ field data 236 1 = c_fixed_supply_flag c
  /\ field data 237 1 = c_creator_trading_fee_pct c /\ field data 238 1 = c_token_update_authority c
  /\ field data 239 1 = c_migration_fee_pct c /\ field data 240 1 = c_creator_migration_fee_pct c
  /\ field data 248 8 = c_swap_base_amount c /\ field data 256 8 = c_threshold c
  /\ field data 264 8 = c_base_threshold c /\ field data 272 16 = c_mig_price c
  /\ field data 336 8 = c_pre_supply c /\ field data 344 8 = c_post_supply c
  /\ field data 360 8 = c_pool_creation_fee c /\ field data 384 16 = c_start c
  /\ (forall i, (i < 20)%nat ->
        field data (400 + 32 * i) 16 = fst (nth i (c_curve c) (0, 0))
        /\ field data (416 + 32 * i) 16 = snd (nth i (c_curve c) (0, 0))).

(** ** Bytes *)
Definition fits (s : slot) : Prop := 0 <= s_value s < 256 ^ Z.of_nat (s_width s).

Definition size (l : list slot) : nat := list_sum (map s_width l).

Lemma image_app a b : image (a ++ b) = image a ++ image b.
Proof. unfold image. rewrite map_app, concat_app. reflexivity. Qed.

Lemma image_length l : length (image l) = size l.
Proof.
  induction l as [|s l IH]; [reflexivity|]. unfold image, size in *. cbn [map concat].
  rewrite app_length, le_length, IH. reflexivity.
Qed.

Lemma image_bytes l : Forall (fun b => 0 <= b <= 255) (image l).
Proof.
  induction l as [|s l IH]; [constructor|]. unfold image in *. cbn [map concat].
  apply Forall_app. split; [apply le_bytes|exact IH].
Qed.

Lemma image_field l i s off : nth_error l i = Some s -> off = size (firstn i l) -> fits s ->
  field (image l) off (s_width s) = s_value s.
Proof.
  intros N -> F. apply nth_error_split in N. destruct N as (a & b & -> & L).
  rewrite firstn_app, <- L, Nat.sub_diag, firstn_all. cbn [firstn]. rewrite app_nil_r.
  replace (a ++ s :: b) with (a ++ [s] ++ b) by reflexivity. rewrite !image_app.
  replace (image [s]) with (le (s_width s) (s_value s)) by (unfold image; cbn; rewrite app_nil_r; reflexivity).
  apply field_at; [apply image_length|exact F].
Qed.

Lemma unles_image l : Forall fits l -> unles (map s_width l) (image l) = Ok (map s_value l).
Proof.
  induction 1 as [|s l F _ IH]; [reflexivity|]. cbn [map unles]. unfold image. cbn [map concat].
  rewrite unle_le by exact F. cbn [bind fst snd]. fold (image l). rewrite IH. reflexivity.
Qed.

Lemma fits_key x : address x -> fits (key x).
Proof. intros H. exact H. Qed.
Lemma fits_8 x : u8ok x -> fits (n8 x).
Proof. unfold u8ok, U8_MAX, fits. cbn [s_value s_width n8]. change (256 ^ Z.of_nat 1) with 256. lia. Qed.
Lemma fits_16 x : u16ok x -> fits (n16 x).
Proof. unfold u16ok, U16_MAX, fits. cbn [s_value s_width n16]. change (256 ^ Z.of_nat 2) with 65536. lia. Qed.
Lemma fits_32 x : u32ok x -> fits (n32 x).
Proof. unfold u32ok, U32_MAX, fits. cbn [s_value s_width n32]. change (256 ^ Z.of_nat 4) with 4294967296. lia. Qed.
Lemma fits_64 x : u64ok x -> fits (n64 x).
Proof. unfold u64ok, U64_MAX, fits. cbn [s_value s_width n64]. change (256 ^ Z.of_nat 8) with (2 ^ 64). lia. Qed.
Lemma fits_128 x : u128ok x -> fits (n128 x).
Proof. unfold u128ok, U128_MAX, fits. cbn [s_value s_width n128]. change (256 ^ Z.of_nat 16) with (2 ^ 128). lia. Qed.
Lemma fits_gap k : fits (gap k).
Proof. unfold fits. cbn [s_value s_width gap]. split; [lia|]. apply Z.pow_pos_nonneg; lia. Qed.

(** ** The values of a pool fit their types *)
Record pool_typed (p : pool) : Prop := {
  ty_last : u64ok (vt_last (p_tracker p)); ty_ref : u128ok (vt_price_ref (p_tracker p));
  ty_va : u128ok (vt_va (p_tracker p)); ty_vref : u128ok (vt_vref (p_tracker p));
  ty_base : u64ok (p_base p); ty_quote : u64ok (p_quote p);
  ty_prb : u64ok (p_protocol_base p); ty_prq : u64ok (p_protocol_quote p);
  ty_pb : u64ok (p_partner_base p); ty_pq : u64ok (p_partner_quote p);
  ty_cb : u64ok (p_creator_base p); ty_cq : u64ok (p_creator_quote p);
  ty_price : u128ok (p_price p); ty_act : u64ok (p_activation p);
  ty_mig : u8ok (p_is_migrated p); ty_psur : u8ok (p_partner_surplus p);
  ty_prsur : u8ok (p_protocol_surplus p); ty_csur : u8ok (p_creator_surplus p);
  ty_progress : u8ok (p_progress p); ty_left : u8ok (p_leftover p);
  ty_mfs : u8ok (p_mig_fee_status p);
  ty_mpb : u64ok (p_m_protocol_base p); ty_mpq : u64ok (p_m_protocol_quote p);
  ty_mtb : u64ok (p_m_trading_base p); ty_mtq : u64ok (p_m_trading_quote p);
  ty_finish : u64ok (p_finish p); ty_legacy : u8ok (p_legacy_bits p);
  ty_cbits : u8ok (p_creation_bits p); ty_swap : u8ok (p_has_swap p);
  ty_mbps : u16ok (p_mig_fee_bps p); ty_mbf : u64ok (p_mig_base_fee p);
  ty_mqf : u64ok (p_mig_quote_fee p)
}.

(** The part that does not follow from the other invariants. *)
Record market_typed (p : pool) : Prop := {
  mt_last : u64ok (vt_last (p_tracker p)); mt_base : p_base p <= U64_MAX;
  mt_mpb : u64ok (p_m_protocol_base p); mt_mpq : u64ok (p_m_protocol_quote p);
  mt_mtb : u64ok (p_m_trading_base p); mt_mtq : u64ok (p_m_trading_quote p);
  mt_finish : u64ok (p_finish p); mt_act : u64ok (p_activation p); mt_swap : u8ok (p_has_swap p)
}.

Definition metrics_le (p : pool) : Prop :=
  p_m_protocol_base p <= U64_MAX /\ p_m_protocol_quote p <= U64_MAX
  /\ p_m_trading_base p <= U64_MAX /\ p_m_trading_quote p <= U64_MAX.

Lemma metrics_ext p p' : metrics_le p -> p_m_protocol_base p' = p_m_protocol_base p ->
  p_m_protocol_quote p' = p_m_protocol_quote p -> p_m_trading_base p' = p_m_trading_base p ->
  p_m_trading_quote p' = p_m_trading_quote p -> metrics_le p'.
Proof. unfold metrics_le. intros H -> -> -> ->. exact H. Qed.

Lemma apply_metrics c p r fm d now p' :
  metrics_le p -> apply_swap_result c p r fm d now = Ok p' -> metrics_le p'.
Proof.
  intros M H. unfold apply_swap_result in H. cbv zeta in H.
  apply bind_ok in H. destruct H as (p1 & F & H).
  assert (M1 : metrics_le p1).
  { unfold apply_fees in F. apply bind_ok in F. destruct F as ([x y] & _ & F).
    destruct (fm_on_base fm); minv; unfold metrics_le in *; simpl in *; lia. }
  apply bind_ok in H. destruct H as (out & _ & H).
  apply bind_ok in H. destruct H as (p2 & RS & H).
  assert (M2 : metrics_le p2).
  { unfold apply_reserves in RS. destruct d; minv; exact M1. }
  apply bind_ok in H. destruct H as (p3 & PS & H). apply Ok_inj in H. subst p'.
  assert (M3 : metrics_le p3).
  { unfold update_post_swap in PS. destruct (dyn_enabled _); [|apply Ok_inj in PS; subst; exact M2].
    apply bind_ok in PS. destruct PS as (vt & _ & PS). apply bind_ok in PS. destruct PS as (x & _ & PS).
    destruct (0 <? x); apply Ok_inj in PS; subst p3; exact M2. }
  exact M3.
Qed.

Lemma swap_metrics w a w' r : metrics_le (w_pool w) -> swap_full w a = Ok (w', r) -> metrics_le (w_pool w').
Proof.
  intros M H. unfold swap_full in H. cbv zeta in H.
  apply bind_ok in H. destruct H as (u0 & Z0 & H).
  apply bind_ok in H. destruct H as (cur & CP & H).
  apply bind_ok in H. destruct H as (u1 & RL & H).
  apply bind_ok in H. destruct H as (u2 & OP & H).
  apply bind_ok in H. destruct H as (p1 & PRE & H).
  apply bind_ok in H. destruct H as (fm & FM & H).
  apply bind_ok in H. destruct H as (r' & PS & H).
  apply bind_ok in H. destruct H as (p2 & AP & H).
  apply bind_ok in H. destruct H as (w1 & TR & H).
  apply bind_ok in H. destruct H as (w2 & FI & H).
  apply Ok_inj in H. apply pair_inj in H. destruct H as (-> & ->).
  pose proof (pre_swap_tracker _ _ _ _ PRE) as (vt & EP1 & _).
  assert (M2 : metrics_le p2) by (eapply apply_metrics; [|exact AP]; rewrite EP1; exact M).
  apply swap_transfers_ok in TR. destruct TR as (_ & _ & _ & PO & _). simpl in PO.
  assert (M3 : metrics_le (w_pool w1)) by (rewrite PO; exact M2).
  unfold finish_curve in FI. cbv zeta in FI. destruct (is_curve_complete (w_pool w1) _) in FI.
  - apply bind_ok in FI. destruct FI as (fees & FE & FI).
    apply bind_ok in FI. destruct FI as (x & X & FI).
    apply bind_ok in FI. destruct FI as (t & T & FI).
    apply bind_ok in FI. destruct FI as (rq & RQ & FI).
    apply bind_ok in FI. destruct FI as (u & U & FI). apply Ok_inj in FI. subst w'. exact M3.
  - apply Ok_inj in FI. subst w'. exact M3.
Qed.

Lemma pre_last c p now vt : pre_tracker c p now vt -> vt_last vt = vt_last (p_tracker p).
Proof.
  unfold pre_tracker. cbv zeta. destruct (dyn_enabled _); [|intros ->; reflexivity].
  unfold update_references. cbv zeta. destruct (_ <=? _); [destruct (_ <? _)|].
  - intros H. apply bind_ok in H. destruct H as (m & _ & H). apply bind_ok in H. destruct H as (v & _ & H).
    apply Ok_inj in H. subst vt. reflexivity.
  - intros H. apply Ok_inj in H. subst vt. reflexivity.
  - intros H. apply Ok_inj in H. subst vt. reflexivity.
Qed.

Lemma post_last c vt old new now vt' : post_tracker c vt old new now vt' ->
  vt_last vt' = vt_last vt \/ vt_last vt' = now.
Proof.
  unfold post_tracker. cbv zeta. destruct (dyn_enabled _); [|intros ->; auto].
  intros (u & mv & U & _ & ->). unfold update_volatility_accumulator in U.
  apply bind_ok in U. destruct U as (dp & _ & U). apply bind_ok in U. destruct U as (m & _ & U).
  apply bind_ok in U. destruct U as (va & _ & U). apply Ok_inj in U. subst u. simpl.
  destruct (0 <? mv); simpl; auto.
Qed.

Lemma reachable_market w : reachable w -> market_typed (w_pool w).
Proof.
  intros (w0 & ops & I0 & ->).
  assert (R0 : reachable w0) by (exists w0, []; auto).
  assert (B : market_typed (w_pool w0)).
  { pose proof (initial_inv _ I0) as I. destruct I0 as (c & key & cr & pa & tt & sl & ti & ad & os & C & SL & TI & H).
    pose proof (created_cfg_ok _ C) as K.
    unfold initialize_pool in H. minv. constructor; simpl; unfold u64ok, u8ok, U64_MAX, U8_MAX in *; try lia.
    - match goal with E : get_initial_base_supply _ = Ok _ |- _ => destruct (ok_supply _ K _ E) as (t & _ & S) end.
      unfold U64_MAX in S. lia.
    - match goal with E : current_point _ _ _ = Ok _ |- _ =>
        unfold current_point in E; apply bind_ok in E; destruct E as (ac & _ & E); apply Ok_inj in E end.
      destruct ac; lia. }
  clear I0. revert w0 R0 B. induction ops as [|o ops IH]; intros w0 R0 B; [exact B|].
  change (run w0 (o :: ops)) with (run (step w0 o) ops).
  apply IH; [apply (reachable_run w0 [o]); auto|].
  destruct (exec w0 o) as [w'|e] eqn:E; [rewrite (step_ok _ _ _ E)|rewrite (step_err _ _ _ E); auto].
  pose proof (reachable_inv _ R0) as I. pose proof (exec_args _ _ _ E) as A.
  destruct (exec_frame _ _ _ I E) as (FR & SM). pose proof (pm_act _ _ (fr_pool _ _ FR)) as AC.
  destruct o; try (destruct B, SM; constructor; congruence).
  destruct (swap_eff _ _ _ I E) as (fm & r & num & fee & gross & pf & cf & cur & p1 & SE & _ & _ & _).
  destruct (swap_mono _ _ _ I E) as (_ & _ & _ & HS & FN).
  simpl in A. repeat rewrite andb_true_iff in A. destruct A as (_ & A3). apply u64b_ok in A3.
  assert (ML : metrics_le (w_pool w')).
  { unfold exec in E. apply bind_ok in E. destruct E as (u & _ & E). unfold do_swap in E.
    apply bind_ok in E. destruct E as ([w2 r2] & S & E). apply Ok_inj in E. simpl in E. subst w2.
    eapply swap_metrics; [|exact S]. destruct B. unfold metrics_le, u64ok in *. lia. }
  destruct (se_num _ _ _ _ _ _ _ _ _ _ _ SE) as (vt & PT & QT & _).
  pose proof (pre_last _ _ _ _ PT) as L1. pose proof (post_last _ _ _ _ _ _ QT) as L2.
  destruct (se_pool _ _ _ _ _ _ _ _ _ _ _ SE) as (p2 & AP & _ & _ & C).
  pose proof (se_facts _ _ _ _ _ _ _ _ _ _ _ SE) as SF.
  pose proof (parts_sum _ _ _ _ _ (sf_fee_nonneg _ _ _ _ _ _ _ _ SF) (sf_parts _ _ _ _ _ _ _ _ SF)) as PS.
  pose proof (sf_gross _ _ _ _ _ _ _ _ SF) as GR.
  assert (EQ : p_base (w_pool w') = p_base p2 /\ p_m_protocol_base (w_pool w') = p_m_protocol_base p2
    /\ p_m_protocol_quote (w_pool w') = p_m_protocol_quote p2 /\ p_m_trading_base (w_pool w') = p_m_trading_base p2
    /\ p_m_trading_quote (w_pool w') = p_m_trading_quote p2).
  { destruct C as [(_ & ->)|(_ & _ & ->)]; auto 6. }
  destruct EQ as (Q1 & Q2 & Q3 & Q4 & Q5). clear C.
  destruct ML as (M1 & M2 & M3 & M4). destruct B as [b1 b2 b3 b4 b5 b6 b7 b8 b9].
  unfold u64ok in *. constructor; unfold u64ok, u8ok, U8_MAX.
  - destruct L2 as [->| ->]; [rewrite L1|]; lia.
  - rewrite Q1. destruct (sa_dir a) eqn:D; [apply (ap_base_max _ _ _ _ _ _ _ _ _ AP); auto|].
    rewrite (ap_base _ _ _ _ _ _ _ _ _ AP). unfold fi_db. simpl. lia.
  - split; [|lia]. rewrite Q2, (ap_mpb _ _ _ _ _ _ _ _ _ AP). destruct (fm_on_base fm); lia.
  - split; [|lia]. rewrite Q3, (ap_mpq _ _ _ _ _ _ _ _ _ AP). destruct (fm_on_base fm); lia.
  - split; [|lia]. rewrite Q4, (ap_mtb _ _ _ _ _ _ _ _ _ AP). destruct (fm_on_base fm); lia.
  - split; [|lia]. rewrite Q5, (ap_mtq _ _ _ _ _ _ _ _ _ AP). destruct (fm_on_base fm); lia.
  - destruct FN as [(_ & _ & ->)|(_ & -> & _)]; lia.
  - rewrite AC. lia.
  - rewrite HS. lia.
Qed.

Lemma unless_nonneg b x : 0 <= x -> 0 <= unless b x.
Proof. unfold unless. destruct b; lia. Qed.

Lemma quote_part w : Inv w ->
  p_partner_quote (w_pool w) + p_creator_quote (w_pool w) + p_protocol_quote (w_pool w)
  + (if p_progress (w_pool w) =? 3 then p_mig_quote_fee (w_pool w) else 0) <= quote_owed w.
Proof.
  intros I. pose proof (created_cfg_ok _ (iv_created _ I)) as K. pose proof (iv_nonneg _ I) as N.
  pose proof (mig_fee_parts _ K) as (M1 & M2 & M3 & M4 & M5).
  pose proof (iv_complete _ I) as C. unfold quote_owed. cbv zeta.
  destruct (p_progress (w_pool w) =? 0) eqn:P0.
  { replace (p_progress (w_pool w) =? 3) with false by lia. lia. }
  pose proof (surplus_parts _ (p_quote (w_pool w)) K ltac:(lia)) as (S1 & S2 & S3 & _).
  pose proof (unless_nonneg (Z.testbit (p_mig_fee_status (w_pool w)) 2) _ M2).
  pose proof (unless_nonneg (Z.testbit (p_mig_fee_status (w_pool w)) 1) _ M3).
  pose proof (unless_nonneg (p_partner_surplus (w_pool w) =? 1) _ S1).
  pose proof (unless_nonneg (p_creator_surplus (w_pool w) =? 1) _ S2).
  pose proof (unless_nonneg (p_protocol_surplus (w_pool w) =? 1) _ S3).
  destruct (p_progress (w_pool w) =? 3); lia.
Qed.

Lemma base_part w : Inv w ->
  p_partner_base (w_pool w) + p_creator_base (w_pool w) + p_protocol_base (w_pool w)
  + (if p_progress (w_pool w) =? 3 then p_mig_base_fee (w_pool w) else 0) <= base_owed w.
Proof.
  intros I. pose proof (created_cfg_ok _ (iv_created _ I)) as K. pose proof (iv_nonneg _ I) as N.
  pose proof (ok_base _ K) as B. destruct (ok_vest _ K) as (t & LT & T0 & _).
  assert (V : vesting_total (w_config w) = t).
  { unfold lv_total in LT. minv. unfold vesting_total. lia. }
  pose proof (iv_progress _ I) as P. unfold base_owed. cbv zeta.
  destruct (p_progress (w_pool w) =? 3) eqn:P3.
  - replace (p_progress (w_pool w) =? 0) with false by lia. replace (p_progress (w_pool w) =? 1) with false by lia.
    replace (p_progress (w_pool w) =? 2) with false by lia. lia.
  - destruct (p_progress (w_pool w) =? 0) eqn:P0; [lia|]. destruct (p_progress (w_pool w) =? 1) eqn:P1; [lia|].
    destruct (p_progress (w_pool w) =? 2) eqn:P2; [lia|]. exfalso. lia.
Qed.

Lemma reachable_typed w : reachable w -> pool_typed (w_pool w).
Proof.
  intros R. pose proof (reachable_inv _ R) as I. pose proof (reachable_market _ R) as M.
  pose proof (reachable_bounded _ R) as [B1 B2 B3]. pose proof (reachable_vt _ R) as (V1 & V2 & V3).
  pose proof (created_cfg_ok _ (iv_created _ I)) as K. pose proof (created_dyn _ (iv_created _ I)) as D.
  cbv zeta in D. pose proof (iv_nonneg _ I) as (N1 & N2 & N3 & N4 & N5 & N6 & N7 & N8 & N9 & N10).
  pose proof (iv_price _ I) as P. pose proof (quote_part _ I) as QP. pose proof (base_part _ I) as BP.
  pose proof (iv_quote _ I) as Q. pose proof (iv_base _ I) as BO.
  pose proof (iv_progress _ I) as PG. pose proof (iv_flags _ I) as (F1 & F2 & F3 & F4).
  pose proof (iv_status _ I) as ST.
  pose proof (iv_cbits _ I) as CB. pose proof (iv_legacy _ I) as LB. pose proof (iv_mbps _ I) as MB.
  pose proof (iv_premig _ I) as PM. pose proof (iv_mig _ I) as MG.
  pose proof (co_start _ _ (ok_curve _ K)) as S0. pose proof (ok_mig_max _ K) as MX.
  assert (VM : 0 <= df_max_va (pf_dyn (c_fees (w_config w))) <= 16777215).
  { destruct D as [(_ & E & _)|(_ & _ & _ & _ & _ & _ & _ & E)]; [rewrite E; lia|exact E]. }
  assert (MF : 0 <= (if p_progress (w_pool w) =? 3 then p_mig_quote_fee (w_pool w) else 0)
    /\ 0 <= (if p_progress (w_pool w) =? 3 then p_mig_base_fee (w_pool w) else 0)
    /\ p_mig_quote_fee (w_pool w) = (if p_progress (w_pool w) =? 3 then p_mig_quote_fee (w_pool w) else 0)
    /\ p_mig_base_fee (w_pool w) = (if p_progress (w_pool w) =? 3 then p_mig_base_fee (w_pool w) else 0)
    /\ (p_is_migrated (w_pool w) = 0 \/ p_is_migrated (w_pool w) = 1)).
  { destruct (p_progress (w_pool w) =? 3) eqn:P3; [lia|]. destruct PM as (X1 & X2 & _ & X3); lia. }
  destruct MF as (G1 & G2 & G3 & G4 & G5).
  clear D R K PM MG I. destruct M as [m1 m2 m3 m4 m5 m6 m7 m8 m9].
  unfold u64ok, u8ok in *. set (p := w_pool w) in *.
  constructor; fold p; unfold u64ok, u128ok, u8ok, u16ok, U64_MAX, U128_MAX, U8_MAX, U16_MAX,
    MAX_SQRT_PRICE, PROTOCOL_LIQUIDITY_MIGRATION_FEE_BPS in *; try lia.
Qed.

Lemma pool_fits p k : pool_typed p -> address (p_creator p) -> links_ok k -> Forall fits (pool_slots p k).
Proof.
  intros [] C (K1 & K2 & K3 & K4 & K5). unfold pool_slots, tracker_slots. cbn [app].
  repeat (constructor; [first [apply fits_gap | apply fits_key; assumption | apply fits_8; assumption
    | apply fits_16; assumption | apply fits_64; assumption | apply fits_128; assumption
    | apply fits_64; unfold u64ok, U64_MAX; lia]|]).
  constructor.
Qed.

(** ** C75: pools *)
Theorem C75_pool_stored : forall w k, reachable w -> address (p_creator (w_pool w)) -> links_ok k ->
  let data := image (pool_slots (w_pool w) k) in
  length data = 416%nat /\ Forall (fun b => 0 <= b <= 255) data
  /\ pool_at data (w_pool w) k
  /\ read_pool data = Ok (w_pool w, k).
Proof.
  intros w k R A L data. pose proof (pool_fits _ k (reachable_typed _ R) A L) as F.
  split; [unfold data; rewrite image_length; reflexivity|].
  split; [apply image_bytes|].
  split.
  - unfold pool_at. unfold data. set (p := w_pool w) in *. clearbody p.
    assert (X : forall i s off, nth_error (pool_slots p k) i = Some s -> off = size (firstn i (pool_slots p k)) ->
              field (image (pool_slots p k)) off (s_width s) = s_value s).
    { intros i s off N O. apply (image_field _ i); auto. rewrite Forall_forall in F. apply F.
      eapply nth_error_In; eauto. }
    repeat match goal with |- _ /\ _ => split end.
    + apply (X 0%nat _ 0%nat eq_refl eq_refl).
    + apply (X 2%nat _ 16%nat eq_refl eq_refl).
    + apply (X 3%nat _ 32%nat eq_refl eq_refl).
    + apply (X 4%nat _ 48%nat eq_refl eq_refl).
    + apply (X 5%nat _ 64%nat eq_refl eq_refl).
    + apply (X 6%nat _ 96%nat eq_refl eq_refl).
    + apply (X 7%nat _ 128%nat eq_refl eq_refl).
    + apply (X 8%nat _ 160%nat eq_refl eq_refl).
    + apply (X 9%nat _ 192%nat eq_refl eq_refl).
    + apply (X 10%nat _ 224%nat eq_refl eq_refl).
    + apply (X 11%nat _ 232%nat eq_refl eq_refl).
    + apply (X 12%nat _ 240%nat eq_refl eq_refl).
    + apply (X 13%nat _ 248%nat eq_refl eq_refl).
    + apply (X 14%nat _ 256%nat eq_refl eq_refl).
    + apply (X 15%nat _ 264%nat eq_refl eq_refl).
    + apply (X 16%nat _ 272%nat eq_refl eq_refl).
    + apply (X 17%nat _ 288%nat eq_refl eq_refl).
    + apply (X 18%nat _ 296%nat eq_refl eq_refl).
    + apply (X 19%nat _ 297%nat eq_refl eq_refl).
    + apply (X 20%nat _ 298%nat eq_refl eq_refl).
    + apply (X 21%nat _ 299%nat eq_refl eq_refl).
    + apply (X 22%nat _ 300%nat eq_refl eq_refl).
    + apply (X 23%nat _ 301%nat eq_refl eq_refl).
    + apply (X 24%nat _ 302%nat eq_refl eq_refl).
    + apply (X 25%nat _ 303%nat eq_refl eq_refl).
    + apply (X 26%nat _ 304%nat eq_refl eq_refl).
    + apply (X 27%nat _ 312%nat eq_refl eq_refl).
    + apply (X 28%nat _ 320%nat eq_refl eq_refl).
    + apply (X 29%nat _ 328%nat eq_refl eq_refl).
    + apply (X 30%nat _ 336%nat eq_refl eq_refl).
    + apply (X 31%nat _ 344%nat eq_refl eq_refl).
    + apply (X 32%nat _ 352%nat eq_refl eq_refl).
    + apply (X 34%nat _ 361%nat eq_refl eq_refl).
    + apply (X 35%nat _ 362%nat eq_refl eq_refl).
    + apply (X 37%nat _ 368%nat eq_refl eq_refl).
    + apply (X 39%nat _ 376%nat eq_refl eq_refl).
    + apply (X 40%nat _ 384%nat eq_refl eq_refl).
  - unfold read_pool, data. change pool_widths with (map s_width (pool_slots (w_pool w) k)).
    rewrite unles_image by exact F. destruct (w_pool w) as [t ? ? ? ? ? ? ? ? ? ? ? ? ? ? ? ? ? ? ? ? ? ? ? ? ? ? ? ? ?], k.
    destruct t. reflexivity.
Qed.

(** Every field starts at a multiple of its alignment, so the compiler inserts no padding of its
    own and the struct is exactly the concatenation of its fields. *)
Fixpoint aligned (off : nat) (l : list slot) : bool :=
  match l with
  | [] => true
  | s :: l => Nat.eqb (Nat.modulo off (s_align s)) 0 && aligned (off + s_width s) l
  end.

Lemma supply_typed q sb ba lr flag pre post :
  match q_token_supply q with Some (a, b) => u64ok a /\ u64ok b | None => True end ->
  supply_of_params q sb ba lr = Ok (flag, pre, post) ->
  u8ok flag /\ u64ok pre /\ u64ok post.
Proof.
  intros T H. unfold supply_of_params in H. destruct (q_token_supply q) as [[a b]|].
  - minv. inversion H; subst. destruct T. split; [unfold u8ok, U8_MAX; lia|split; assumption].
  - inversion H; subst. unfold u8ok, u64ok, U8_MAX, U64_MAX. lia.
Qed.

Lemma vesting_info_typed v : lvparams_typed v -> let i := to_liquidity_vesting_info v in
  u8ok (vi_initialized i) /\ u8ok (vi_percentage i) /\ u16ok (vi_bps_per_period i) /\ u16ok (vi_periods i)
  /\ u32ok (vi_frequency i) /\ u32ok (vi_cliff i).
Proof.
  intros (A & B & C & D & E). unfold to_liquidity_vesting_info. cbv zeta.
  destruct (vq_is_zero v); simpl; unfold u8ok, u16ok, u32ok, U8_MAX, U16_MAX, U32_MAX in *; lia.
Qed.

Lemma config_fits c flag : created c -> address (c_quote_mint c) -> address (c_fee_claimer c) ->
  address (c_leftover_receiver c) -> u8ok flag ->
  Forall fits (config_slots c flag) /\ length (c_curve c) = 20%nat.
Proof.
  intros H A1 A2 A3 FL. pose proof (created_cfg_ok _ H) as K. apply created_inv in H.
  destruct H as (q & sup & spl & now & mig & sb & ba & fl & pre & post & qm & fc & lr & qa & bps
                 & T & _ & B).
  destruct B as [V M MX S S64 AM BP SP MODE COMP SUP BPS BMIN EQ].
  apply validate_inv in V. destruct V as (_ & V).
  pose proof (curve_validate_ok _ _ (va_curve _ _ _ V)) as (ST & NE & LEN & W & TOP).
  pose proof (supply_typed _ _ _ _ _ _ _ (pt_supply _ T) SUP) as (U1 & U2 & U3).
  pose proof (ok_swap _ K) as K1. pose proof (ok_base _ K) as K2. pose proof (ok_mig_max _ K) as K3.
  pose proof (co_start _ _ (ok_curve _ K)) as K4. 
  pose proof (vesting_info_typed _ (pt_pv _ T)) as (P1 & P2 & P3 & P4 & P5 & P6).
  pose proof (vesting_info_typed _ (pt_cv _ T)) as (C1 & C2 & C3 & C4 & C5 & C6).
  pose proof (pt_base _ T) as (D1 & D2 & D3 & D4 & D5).
  pose proof (pt_vesting _ T) as (L1 & L2 & L3 & L4 & L5).
  assert (DF : dyn_typed (pf_dyn (to_pool_fees_config q))).
  { pose proof (pt_dyn _ T) as TD. unfold to_pool_fees_config. cbn [pf_dyn].
    destruct (q_dynamic_fee q) as [d|]; unfold dyn_typed in *; simpl;
      unfold u8ok, u16ok, u32ok, u128ok, U8_MAX, U16_MAX, U32_MAX, U128_MAX in *; lia. }
  destruct DF as (E1 & E2 & E3 & E4 & E5 & E6 & E7 & E8).
  assert (FS : u8ok (if q_first_swap_min_fee q then 1 else 0)).
  { destruct (q_first_swap_min_fee q); unfold u8ok, U8_MAX; lia. }
  subst c. cbn [c_swap_base_amount c_base_threshold c_mig_price c_start c_quote_mint c_fee_claimer
    c_leftover_receiver build] in *.
  assert (MP : u128ok mig).
  { unfold MAX_SQRT_PRICE in MX. unfold u128ok, U128_MAX.
    pose proof (co_mig_lo _ _ (ok_curve _ K)) as X. cbn [c_mig_price c_start build] in X. lia. }
  assert (LC : length (pad_curve (q_curve q)) = 20%nat).
  { unfold pad_curve. rewrite app_length, repeat_length. unfold MAX_CURVE_POINT_CONFIG, MAX_CURVE_POINT in *. lia. }
  split; [|exact LC].
  unfold config_slots. repeat (apply Forall_app; split).
  - repeat (constructor; [apply fits_key; assumption|]). constructor.
  - unfold fees_slots. cbv zeta. cbn [c_fees build].
    repeat (constructor; [first [apply fits_gap | apply fits_8; assumption | apply fits_16; assumption
      | apply fits_32; assumption | apply fits_64; assumption | apply fits_128; assumption]|]).
    constructor.
  - cbn [c_partner_vesting build]. unfold liq_vesting_slots.
    repeat (constructor; [first [apply fits_gap | apply fits_8; assumption | apply fits_16; assumption
      | apply fits_32; assumption]|]). constructor.
  - cbn [c_creator_vesting build]. unfold liq_vesting_slots.
    repeat (constructor; [first [apply fits_gap | apply fits_8; assumption | apply fits_16; assumption
      | apply fits_32; assumption]|]). constructor.
  - destruct T. cbn [c_collect_fee_mode c_migration_option c_activation_type c_token_decimal c_token_type
      c_partner_perm_pct c_partner_liq_pct c_creator_perm_pct c_creator_liq_pct c_migration_fee_option
      c_fixed_supply_flag c_creator_trading_fee_pct c_token_update_authority c_migration_fee_pct
      c_creator_migration_fee_pct c_swap_base_amount c_threshold c_base_threshold c_mig_price build].
    repeat (constructor; [first [apply fits_gap | apply fits_8; assumption | apply fits_128; assumption
      | apply fits_64; first [assumption | unfold u64ok; lia]
      | apply fits_16; unfold u16ok, U16_MAX; lia | apply fits_8; unfold u8ok, U8_MAX; lia]|]).
    constructor.
  - cbn [c_vesting build]. unfold locked_vesting_slots.
    repeat (constructor; [apply fits_64; first [assumption | unfold u64ok, U64_MAX; lia]|]). constructor.
  - destruct T. cbn [c_pre_supply c_post_supply c_migrated_collect_mode c_migrated_dynamic_fee
      c_migrated_pool_fee_bps c_migrated_base_fee_mode c_first_swap_min_fee c_compounding_fee_bps
      c_pool_creation_fee c_mc_number_of_period c_mc_price_step c_mc_expiration c_mc_reduction c_start build].
    repeat (constructor; [first [apply fits_8; assumption | apply fits_128; assumption
      | apply fits_64; assumption | apply fits_16; assumption
      | apply (fits_16 (q_mc_number_of_period q)); assumption | apply (fits_16 (q_mc_price_step q)); assumption
      | apply (fits_32 (q_mc_expiration q)); assumption | apply (fits_64 (q_mc_reduction q)); assumption]|]).
    constructor.
  - cbn [c_curve build]. unfold pad_curve. rewrite flat_map_app. apply Forall_app. split.
    + pose proof (pt_curve _ T) as PC. clear - PC. induction PC as [|pl l (X & Y) _ IH]; [constructor|].
      cbn [flat_map point_slots app]. constructor; [apply fits_128; auto|].
      constructor; [apply fits_128; auto|exact IH].
    + generalize (MAX_CURVE_POINT_CONFIG - length (q_curve q))%nat. intros n.
      induction n; cbn [repeat flat_map point_slots app fst snd]; [constructor|].
      constructor; [apply fits_128; unfold u128ok, U128_MAX; lia|].
      constructor; [apply fits_128; unfold u128ok, U128_MAX; lia|exact IHn].
Qed.

Lemma widths_config c flag : length (c_curve c) = 20%nat ->
  map s_width (config_slots c flag) = head_widths ++ curve_widths.
Proof.
  intros L. unfold config_slots. rewrite !map_app. 
  replace (map s_width (flat_map point_slots (c_curve c))) with curve_widths.
  { reflexivity. }
  unfold curve_widths. change 40%nat with (2 * 20)%nat. rewrite <- L. generalize (c_curve c).
  induction l as [|pl l IH]; [reflexivity|]. cbn [length flat_map point_slots app map s_width n128].
  replace (2 * S (length l))%nat with (S (S (2 * length l))) by lia. cbn [repeat]. rewrite IH. reflexivity.
Qed.

Lemma pairs_points l : pairs (map s_value (flat_map point_slots l)) = l.
Proof. induction l as [|[a b] l IH]; [reflexivity|]. cbn. rewrite IH. reflexivity. Qed.

(** ** C75: configs *)
Theorem C75_config_stored : forall c flag, created c -> address (c_quote_mint c) ->
  address (c_fee_claimer c) -> address (c_leftover_receiver c) -> u8ok flag ->
  let data := image (config_slots c flag) in
  length data = 1040%nat /\ Forall (fun b => 0 <= b <= 255) data
  /\ config_at data c flag
  /\ read_config data = Ok (c, flag).
Proof.
  intros c flag H A1 A2 A3 FL data. destruct (config_fits c flag H A1 A2 A3 FL) as (F & L).
  assert (SZ : size (config_slots c flag) = 1040%nat).
  { unfold size. rewrite (widths_config c flag L). reflexivity. }
  split; [unfold data; rewrite image_length; exact SZ|].
  split; [apply image_bytes|].
  split.
  - unfold config_at, data.
    assert (X : forall i s off, nth_error (config_slots c flag) i = Some s -> off = size (firstn i (config_slots c flag)) ->
              field (image (config_slots c flag)) off (s_width s) = s_value s).
    { intros i s off N O. apply (image_field _ i); auto. rewrite Forall_forall in F. apply F.
      eapply nth_error_In; eauto. }
    split; [exact (X 0%nat _ 0%nat eq_refl eq_refl)|].
    split; [exact (X 1%nat _ 32%nat eq_refl eq_refl)|].
    split; [exact (X 2%nat _ 64%nat eq_refl eq_refl)|].
    split; [exact (X 3%nat _ 96%nat eq_refl eq_refl)|].
    split; [exact (X 4%nat _ 104%nat eq_refl eq_refl)|].
    split; [exact (X 5%nat _ 112%nat eq_refl eq_refl)|].
    split; [exact (X 6%nat _ 120%nat eq_refl eq_refl)|].
    split; [exact (X 7%nat _ 122%nat eq_refl eq_refl)|].
    split; [exact (X 9%nat _ 128%nat eq_refl eq_refl)|].
    split; [exact (X 11%nat _ 136%nat eq_refl eq_refl)|].
    split; [exact (X 12%nat _ 140%nat eq_refl eq_refl)|].
    split; [exact (X 35%nat _ 224%nat eq_refl eq_refl)|].
    split; [exact (X 36%nat _ 225%nat eq_refl eq_refl)|].
    split; [exact (X 37%nat _ 226%nat eq_refl eq_refl)|].
    split; [exact (X 38%nat _ 227%nat eq_refl eq_refl)|].
    split; [exact (X 39%nat _ 228%nat eq_refl eq_refl)|].
    split; [exact (X 40%nat _ 229%nat eq_refl eq_refl)|].
    split; [exact (X 41%nat _ 230%nat eq_refl eq_refl)|].
    split; [exact (X 42%nat _ 231%nat eq_refl eq_refl)|].
    split; [exact (X 43%nat _ 232%nat eq_refl eq_refl)|].
    split; [exact (X 44%nat _ 233%nat eq_refl eq_refl)|].
    split; [exact (X 45%nat _ 234%nat eq_refl eq_refl)|].
    split; [exact (X 46%nat _ 235%nat eq_refl eq_refl)|].
    split; [exact (X 47%nat _ 236%nat eq_refl eq_refl)|].
    split; [exact (X 48%nat _ 237%nat eq_refl eq_refl)|].
    split; [exact (X 49%nat _ 238%nat eq_refl eq_refl)|].
    split; [exact (X 50%nat _ 239%nat eq_refl eq_refl)|].
    split; [exact (X 51%nat _ 240%nat eq_refl eq_refl)|].
    split; [exact (X 53%nat _ 248%nat eq_refl eq_refl)|].
    split; [exact (X 54%nat _ 256%nat eq_refl eq_refl)|].
    split; [exact (X 55%nat _ 264%nat eq_refl eq_refl)|].
    split; [exact (X 56%nat _ 272%nat eq_refl eq_refl)|].
    split; [exact (X 63%nat _ 336%nat eq_refl eq_refl)|].
    split; [exact (X 64%nat _ 344%nat eq_refl eq_refl)|].
    split; [exact (X 71%nat _ 360%nat eq_refl eq_refl)|].
    split; [exact (X 76%nat _ 384%nat eq_refl eq_refl)|].
    destruct c as [c1 c2 c3 c4 c5 c6 c7 c8 c9 c10 c11 c12 c13 c14 c15 c16 c17 c18 c19 c20 c21 c22
      c23 c24 c25 c26 c27 c28 c29 c30 c31 c32 c33 c34 c35 c36 c37 c38 c39 c40 curve].
    cbn [c_curve] in *. clear - X L.
    do 20 (destruct curve as [|? curve]; [discriminate L|]). destruct curve; [|discriminate L]. clear L.
    intros i I.
    destruct i as [|i]; [split; [exact (X 77%nat _ 400%nat eq_refl eq_refl)|exact (X 78%nat _ 416%nat eq_refl eq_refl)]|].
    destruct i as [|i]; [split; [exact (X 79%nat _ 432%nat eq_refl eq_refl)|exact (X 80%nat _ 448%nat eq_refl eq_refl)]|].
    destruct i as [|i]; [split; [exact (X 81%nat _ 464%nat eq_refl eq_refl)|exact (X 82%nat _ 480%nat eq_refl eq_refl)]|].
    destruct i as [|i]; [split; [exact (X 83%nat _ 496%nat eq_refl eq_refl)|exact (X 84%nat _ 512%nat eq_refl eq_refl)]|].
    destruct i as [|i]; [split; [exact (X 85%nat _ 528%nat eq_refl eq_refl)|exact (X 86%nat _ 544%nat eq_refl eq_refl)]|].
    destruct i as [|i]; [split; [exact (X 87%nat _ 560%nat eq_refl eq_refl)|exact (X 88%nat _ 576%nat eq_refl eq_refl)]|].
    destruct i as [|i]; [split; [exact (X 89%nat _ 592%nat eq_refl eq_refl)|exact (X 90%nat _ 608%nat eq_refl eq_refl)]|].
    destruct i as [|i]; [split; [exact (X 91%nat _ 624%nat eq_refl eq_refl)|exact (X 92%nat _ 640%nat eq_refl eq_refl)]|].
    destruct i as [|i]; [split; [exact (X 93%nat _ 656%nat eq_refl eq_refl)|exact (X 94%nat _ 672%nat eq_refl eq_refl)]|].
    destruct i as [|i]; [split; [exact (X 95%nat _ 688%nat eq_refl eq_refl)|exact (X 96%nat _ 704%nat eq_refl eq_refl)]|].
    destruct i as [|i]; [split; [exact (X 97%nat _ 720%nat eq_refl eq_refl)|exact (X 98%nat _ 736%nat eq_refl eq_refl)]|].
    destruct i as [|i]; [split; [exact (X 99%nat _ 752%nat eq_refl eq_refl)|exact (X 100%nat _ 768%nat eq_refl eq_refl)]|].
    destruct i as [|i]; [split; [exact (X 101%nat _ 784%nat eq_refl eq_refl)|exact (X 102%nat _ 800%nat eq_refl eq_refl)]|].
    destruct i as [|i]; [split; [exact (X 103%nat _ 816%nat eq_refl eq_refl)|exact (X 104%nat _ 832%nat eq_refl eq_refl)]|].
    destruct i as [|i]; [split; [exact (X 105%nat _ 848%nat eq_refl eq_refl)|exact (X 106%nat _ 864%nat eq_refl eq_refl)]|].
    destruct i as [|i]; [split; [exact (X 107%nat _ 880%nat eq_refl eq_refl)|exact (X 108%nat _ 896%nat eq_refl eq_refl)]|].
    destruct i as [|i]; [split; [exact (X 109%nat _ 912%nat eq_refl eq_refl)|exact (X 110%nat _ 928%nat eq_refl eq_refl)]|].
    destruct i as [|i]; [split; [exact (X 111%nat _ 944%nat eq_refl eq_refl)|exact (X 112%nat _ 960%nat eq_refl eq_refl)]|].
    destruct i as [|i]; [split; [exact (X 113%nat _ 976%nat eq_refl eq_refl)|exact (X 114%nat _ 992%nat eq_refl eq_refl)]|].
    destruct i as [|i]; [split; [exact (X 115%nat _ 1008%nat eq_refl eq_refl)|exact (X 116%nat _ 1024%nat eq_refl eq_refl)]|].
    exfalso. lia.
  - unfold read_config, data. rewrite <- (widths_config c flag L), unles_image by exact F.
    unfold config_slots. rewrite !map_app. cbn [bind].
    pose proof (pairs_points (c_curve c)) as PP.
    set (m := map s_value (flat_map point_slots (c_curve c))) in *. clearbody m. clear - PP.
    destruct c as [c1 c2 c3 [[] []] [] [] c7 c8 c9 c10 c11 c12 c13 c14 c15 c16 c17 c18 c19 c20 c21 c22
      c23 c24 c25 [] c27 c28 c29 c30 c31 c32 c33 c34 c35 c36 c37 c38 c39 c40 curve].
    cbn [c_curve] in PP. subst curve. reflexivity.
Qed.

(** ** C75: nothing lies between the fields *)
Lemma aligned_points l : forall off, Nat.modulo off 16 = 0%nat -> aligned off (flat_map point_slots l) = true.
Proof.
  induction l as [|pl l IH]; intros off H; [reflexivity|].
  cbn [flat_map point_slots app aligned s_align s_width n128]. rewrite H.
  assert (forall o, Nat.modulo o 16 = 0 -> Nat.modulo (o + 16) 16 = 0)%nat as X.
  { intros o E. replace (o + 16)%nat with (o + 1 * 16)%nat by lia. rewrite Nat.mod_add by lia. exact E. }
  rewrite (X _ H), (IH (off + 16 + 16)%nat) by auto. reflexivity.
Qed.

Lemma aligned_app a : forall off b, aligned off (a ++ b) = aligned off a && aligned (off + size a) b.
Proof.
  induction a as [|s a IH]; intros off b.
  { cbn. rewrite Nat.add_0_r. reflexivity. }
  cbn [app aligned]. rewrite IH. unfold size. cbn [map list_sum fold_right].
  rewrite Nat.add_assoc, andb_assoc. reflexivity.
Qed.

(** The structs need no compiler-inserted padding: each field lies at a multiple of its alignment
    directly after the previous one, and the total is a multiple of the largest alignment. *)
Theorem C75_no_gaps :
  (forall p k, aligned 0 (pool_slots p k) = true /\ Nat.modulo (size (pool_slots p k)) 16 = 0%nat)
  /\ (forall c flag, created c ->
        aligned 0 (config_slots c flag) = true /\ Nat.modulo (size (config_slots c flag)) 16 = 0%nat).
Proof.
  split; [intros p k; split; reflexivity|]. intros c flag H.
  assert (L : length (c_curve c) = 20%nat).
  { apply created_inv in H.
    destruct H as (q & sup & spl & now & mig & sb & ba & fl & pre & post & qm & fc & lr & qa & bps & _ & _ & B).
    destruct B as [V _ _ _ _ _ _ _ _ _ _ _ _ EQ]. apply validate_inv in V. destruct V as (_ & V).
    pose proof (curve_validate_ok _ _ (va_curve _ _ _ V)) as (_ & _ & LEN & _). subst c. cbn [c_curve build].
    unfold pad_curve. rewrite app_length, repeat_length.
    unfold MAX_CURVE_POINT_CONFIG, MAX_CURVE_POINT in *. lia. }
  split.
  - unfold config_slots. do 3 rewrite app_assoc. do 3 rewrite app_assoc. rewrite aligned_app. 
    rewrite aligned_points by reflexivity. reflexivity.
  - unfold size. rewrite (widths_config c flag L). reflexivity.
Qed.

(** Two pools with the same account data are in the same state, and so are two configs. *)
Theorem C75_data_decides :
  (forall w w' k k', reachable w -> reachable w' -> address (p_creator (w_pool w)) ->
     address (p_creator (w_pool w')) -> links_ok k -> links_ok k' ->
     image (pool_slots (w_pool w) k) = image (pool_slots (w_pool w') k') ->
     w_pool w = w_pool w' /\ k = k')
  /\ (forall c c' flag flag', created c -> created c' -> u8ok flag -> u8ok flag' ->
     address (c_quote_mint c) -> address (c_fee_claimer c) -> address (c_leftover_receiver c) ->
     address (c_quote_mint c') -> address (c_fee_claimer c') -> address (c_leftover_receiver c') ->
     image (config_slots c flag) = image (config_slots c' flag') -> c = c' /\ flag = flag').
Proof.
  split.
  - intros w w' k k' R R' A A' L L' E.
    destruct (C75_pool_stored w k R A L) as (_ & _ & _ & P).
    destruct (C75_pool_stored w' k' R' A' L') as (_ & _ & _ & P').
    rewrite E, P' in P. apply Ok_inj in P. apply pair_inj in P. destruct P. auto.
  - intros c c' flag flag' H H' F F' A1 A2 A3 B1 B2 B3 E.
    destruct (C75_config_stored c flag H A1 A2 A3 F) as (_ & _ & _ & P).
    destruct (C75_config_stored c' flag' H' B1 B2 B3 F') as (_ & _ & _ & P').
    rewrite E, P' in P. apply Ok_inj in P. apply pair_inj in P. destruct P. auto.
Qed.

(** Concrete cases: pool A after a history of trades, claims and completion, and its config. *)
Example C75_case_pool :
  let w := run wA (histA1 ++ histA2 ++ histA3) in
  reachable w /\ address (p_creator (w_pool w)) /\ links_ok (mkLinks 11 12 13 14 1)
  /\ firstn 16 (skipn 272 (image (pool_slots (w_pool w) (mkLinks 11 12 13 14 1)))) = le 16 (p_price (w_pool w))
  /\ 0 < p_price (w_pool w) /\ 0 < p_m_trading_quote (w_pool w).
Proof.
  split; [apply reachA|]. unfold address, links_ok, address, u8ok, U8_MAX. cbn [k_config k_base_mint k_base_vault k_quote_vault k_pool_type].
  vm_compute. repeat split; intros; discriminate.
Qed.
Example C75_case_config :
  created cfgA /\ address (c_quote_mint cfgA) /\ address (c_fee_claimer cfgA)
  /\ address (c_leftover_receiver cfgA) /\ length (image (config_slots cfgA 0)) = 1040%nat.
Proof.
  split; [exact createdA|]. unfold address. vm_compute. repeat split; intros; discriminate.
Qed.

Print Assumptions C75_pool_stored.
Print Assumptions C75_config_stored.
Print Assumptions C75_no_gaps.
Print Assumptions C75_data_decides.
