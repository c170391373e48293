(** * What a constant-product pool leaves in the quote vault: C69, continued. *)
From Coq Require Import ZArith QArith List Bool Lia ZifyBool.
From Verif Require Import Base MathModel CurveModel FeeModel ConfigModel PoolModel TxModel
  SystemModel Fixtures Spec SpecHist Lib CalcProofs ConfigProofs CurveProofs InvProofs InvReach
  FixturesReach Effects Frame Bounds PropMath PropConfig PropVest PropMig PropOpen PropStrand
  PropUntaken PropLock.
Import ListNotations.
Open Scope Z_scope.
#[local] Arguments Z.pow : simpl never.
#[local] Arguments Z.testbit : simpl never.

(** ** Specification

    The first position is charged what the constant-product formulas say; a second one a proportional
    part of the new pool's reserves. *)
Definition product_charged (x : damm_v2_ext) (positions : list position) : Prop :=
  match positions with
  | [first] => damm_as_specified Compounding x first
  | [first; second] => damm_as_specified Compounding x first
      /\ damm_adds Compounding (po_price first) (x_d1b x) (x_d1q x) (po_total first)
           (po_total second) (x_d2b x) (x_d2q x)
  | _ => False
  end.

(** ** Arithmetic *)
Lemma product_untaken_arith eb eq p s2 A d1b d1q l2 d2q u :
  let E := 2 ^ 64 in
  0 <= eb -> 3 <= p -> s2 <= p <= s2 + 1 -> E <= A -> s2 * eb <= 2 * A ->
  eq * Q128 <= (p * p + 2 * p) * eb ->
  ceil_frac A p d1b -> ceil_frac (A * p) Q128 d1q ->
  ~ ((l2 + 1) * d1b <= (eb - d1b) * A /\ (l2 + 1) * d1q <= (eq - d1q) * A) ->
  l2 * d1q <= d2q * A -> u = eq - d1q - d2q ->
  u * Q128 <= 2 * p ^ 2 + 2 * p * (eb + 2) + E.
Proof.
  intros E B P S AE HALF X (R1 & R2) (T1 & T2) MX D2 ->.
  assert (QE : Q128 = E * E) by reflexivity. assert (E0 : 0 < E) by reflexivity. clearbody E.
  assert (A0 : 0 < A) by lia. assert (Q0 : 0 < Q128) by (rewrite QE; nia).
  assert (D0 : 0 < d1b) by nia. assert (DQ : 0 < d1q) by nia.
  assert (QA : Q128 <= A * E) by (rewrite QE; apply Z.mul_le_mono_nonneg_r; lia).
  assert (TQ : d1q * Q128 <= A * (p + E)) by lia.
  replace (p ^ 2) with (p * p) by ring.
  set (u := eq - d1q - d2q). set (q := Q128) in *. clearbody q.
  destruct (Z_lt_le_dec ((eq - d1q) * A) ((l2 + 1) * d1q)) as [C|C].
  - assert (U1 : u * A < d1q) by (unfold u; lia). clearbody u.
    assert (U2 : u * A * q <= d1q * q) by (apply Z.mul_le_mono_nonneg_r; lia).
    assert (U3 : (u * q) * A <= (p + E) * A) by lia. apply Z.mul_le_mono_pos_r in U3; [|lia].
    assert (0 <= p * p) by nia. assert (0 <= p * eb) by nia. lia.
  - assert (C2 : (eb - d1b) * A < (l2 + 1) * d1b) by lia. clear MX C.
    (* u A d1b <= eq A d1b - d1q eb A + d1q d1b *)
    assert (V1 : d1b * (l2 * d1q) <= d1b * (d2q * A)) by (apply Z.mul_le_mono_nonneg_l; lia).
    assert (V2 : d1q * ((eb - d1b) * A) <= d1q * ((l2 + 1) * d1b)) by (apply Z.mul_le_mono_nonneg_l; lia).
    assert (V3 : u * (A * d1b) <= eq * A * d1b - d1q * eb * A + d1q * d1b) by (unfold u; lia).
    clearbody u. clear V1 V2 C2 D2.
    assert (V4 : u * (A * d1b) * q <= (eq * A * d1b - d1q * eb * A + d1q * d1b) * q)
      by (apply Z.mul_le_mono_nonneg_r; lia).
    assert (V5 : (A * d1b) * (eq * q) <= (A * d1b) * ((p * p + 2 * p) * eb)) by (apply Z.mul_le_mono_nonneg_l; nia).
    assert (V6 : (eb * A) * (A * p) <= (eb * A) * (d1q * q)) by (apply Z.mul_le_mono_nonneg_l; nia).
    assert (V7 : d1b * (d1q * q) <= d1b * (A * (p + E))) by (apply Z.mul_le_mono_nonneg_l; lia).
    assert (V8 : (eb * A * p) * (d1b * p) <= (eb * A * p) * (A + p)) by (apply Z.mul_le_mono_nonneg_l; nia).
    (* eb p^2 <= (2 p^2 + 2 p + 3) d1b *)
    assert (W1 : eb * (p - 1) <= 2 * (d1b * p)) by nia.
    assert (W2 : (p * p) * (eb * (p - 1)) <= (p * p) * (2 * (d1b * p))) by (apply Z.mul_le_mono_nonneg_l; nia).
    assert (W3 : d1b * (2 * p * p * p) <= d1b * (2 * p * p * p + p - 3)) by (apply Z.mul_le_mono_nonneg_l; lia).
    assert (W4 : (eb * (p * p)) * (p - 1) <= (d1b * (2 * p * p + 2 * p + 3)) * (p - 1)) by lia.
    apply Z.mul_le_mono_pos_r in W4; [|lia].
    assert (W5 : A * (eb * (p * p)) <= A * (d1b * (2 * p * p + 2 * p + 3))) by (apply Z.mul_le_mono_nonneg_l; lia).
    assert (F : (u * q) * (A * d1b) <= (2 * p * p + 2 * p + 3 + 2 * p * eb + (p + E)) * (A * d1b)) by lia.
    apply Z.mul_le_mono_pos_r in F; [lia|apply Z.mul_pos_pos; assumption].
Qed.

(** ** C69 *)

(** A constant-product pool that charges what its formulas say leaves at most the price of two base
    units (a base unit is worth s^2 / 2^128 quote units), plus what one step of the price's
    resolution is worth on the [b] base tokens deposited, 2 s b / 2^128, plus less than one part in
    2^60 of the price's square root and of a unit. *)
Theorem C69_product_takes_all : forall w x now w' first rest,
  reachable w -> exec w (OMigrateV2 x now) = Ok w' ->
  c_migrated_collect_mode (w_config w) = 2 -> w_positions w' = first :: rest ->
  product_charged x (w_positions w') ->
  let s := po_price first in let b := seed_base (w_config w) in
  quote_untaken w (OMigrateV2 x now) * 2 ^ 128 <= 2 * s ^ 2 + 2 * s * (b + 2) + 2 ^ 64.
Proof.
  intros w x now w' f r R H CM PS CH s b. pose proof (reachable_inv _ R) as I. pose proof H as H0.
  pose proof (iv_created _ I) as C.
  pose proof (exec_args _ _ _ H) as A. unfold exec in H. rewrite A in H. cbn [require bind] in H.
  pose proof H as HE. apply migrate_v2_eff in HE.
  destruct HE as (fb' & fq' & eb' & eq' & l2' & b' & mb & h & HH' & P2 & _ & S' & _ & _ & _ & E & _).
  pose proof H as HP. apply migrate_v2_positions in HP. cbv zeta in HP.
  apply migrate_v2_quote in H. cbv zeta in H.
  destruct H as (fb & fq & eb & eq & l1 & l2 & _ & O & S & D1 & D2 & L2 & Y & N).
  assert (HH : get_migration_handler 1 (c_migrated_collect_mode (w_config w)) = Compounding) by (rewrite CM; reflexivity).
  rewrite HH' in S'. rewrite HH in *. rewrite S in S'. apply Ok_inj in S'. inversion S'; subst fb' fq' eb' eq'; clear S'.
  assert (HM : mig_handler (w_config w) = Compounding) by (unfold mig_handler; rewrite O; exact HH).
  destruct (seed_amounts w _ _ _ _ R HM S) as (EB & _ & _). fold b in EB.
  assert (U : quote_untaken w (OMigrateV2 x now) = eq - (w_qvault w - w_qvault w')).
  { destruct (split_ok _ _ _ _ _ _ I S) as (ib & iq & EB' & EQ & FB & FQ & IQ & _).
    unfold quote_untaken. rewrite H0. simpl is_ok. cbv iota.
    rewrite (paid_quote _ _ _ H0) by eauto. unfold step. rewrite H0, (ef_pool _ _ _ _ E). simpl. lia. }
  clear E HH'.
  destruct HP as (hh & fb' & fq' & eb' & eq' & price & liq & dead & pa & cr & tp & tc & fi & se & o1 & o2 & t1 & vp1
    & rest & HD & _ & _ & S' & INF & D & TP & TC & OR & T1 & V1 & PS' & _).
  subst hh. rewrite S in S'. apply Ok_inj in S'. inversion S'; subst fb' fq' eb' eq'; clear S'.
  destruct (split_exists w R P2) as (fb' & fq' & eb' & eq' & S' & EBR & EQR & SC & SV). cbv zeta in S', SC, SV.
  rewrite HM in S', SC, SV. rewrite S in S'. apply Ok_inj in S'. inversion S'; subst fb' fq' eb' eq'; clear S'. specialize (SV O).
  destruct (initial_info_exists (w_config w) Compounding eb eq C (eq_sym HM) EBR EQR SC SV)
    as (price' & liq' & dead' & INF' & L0 & DE & LU & PR & _ & s2 & S20 & SE & S12 & DP & X).
  rewrite INF in INF'. apply Ok_inj in INF'. inversion INF'; subst price' liq' dead'; clear INF'.
  assert (LB : 0 <= liq <= U128_MAX) by lia.
  destruct (dist_shares (w_config w) liq C LB) as (pa' & cr' & D' & SH & SUM). rewrite D in D'. apply Ok_inj in D'.
  inversion D'; subst pa' cr'; clear D'.
  assert (FS : 0 <= t1 /\ liq <= 2 * t1).
  { destruct (SH pa ltac:(auto)) as (X1 & X2 & X3 & _ & _ & _ & _ & X4).
    destruct (SH cr ltac:(auto)) as (Z1 & Z2 & Z3 & _ & _ & _ & _ & Z4).
    rewrite TP in X4. rewrite TC in Z4. apply Ok_inj in X4, Z4.
    clear -OR SUM X1 X2 X3 X4 Z1 Z2 Z3 Z4 T1 TP TC.
    destruct (tc <? tp) eqn:E; injection OR as -> -> -> ->; [rewrite TP in T1|rewrite TC in T1];
      apply Ok_inj in T1; lia. }
  assert (DD : dead = DEAD_LIQUIDITY).
  { clear -INF. unfold initial_pool_information in INF. apply bind_ok in INF. destruct INF as ([? ?] & _ & INF).
    apply bind_ok in INF. destruct INF as (d & _ & INF). apply Ok_inj in INF. congruence. }
  assert (EA : 2 ^ 64 <= t1 + dead).
  { rewrite DD. assert (2 ^ 64 <= DEAD_LIQUIDITY) by (vm_compute; discriminate). lia. }
  assert (P3 : 3 <= price) by (assert (3 <= MIN_SQRT_PRICE) by (vm_compute; discriminate); lia).
  rewrite PS in PS'. injection PS' as Ef Er. clear INF SH OR V1 SC SV.
  assert (EP : s = price) by (unfold s; rewrite Ef; reflexivity).
  assert (ET : po_total f = t1 + dead) by (rewrite Ef; reflexivity).
  assert (EPf : po_price f = price) by (rewrite Ef; reflexivity).
  clearbody s. rewrite PS in CH, Y, N. cbn [map] in Y, N. rewrite U, EP, <- EB. clear Ef Er.
  change (2 ^ 128) with Q128.
  assert (SP : damm_as_specified Compounding x f /\ l1 = po_total f
     /\ exists dq, w_qvault w - w_qvault w' = x_d1q x + dq /\ l2 * x_d1q x <= dq * po_total f).
  { destruct (Z_lt_le_dec 0 l2) as [L|L].
    - destruct (Y L) as (PO & QV). destruct r as [|g [|? ?]]; try discriminate PO. cbn [map] in PO.
      injection PO as P1 P2'. cbn [product_charged] in CH. destruct CH as (CH & (_ & CQ)).
      split; [exact CH|]. split; [auto|]. exists (x_d2q x). split; [lia|]. destruct CQ as (CQ & _). rewrite P2' in CQ. exact CQ.
    - destruct (N L) as (PO & QV). destruct r as [|g r]; [|discriminate PO]. cbn [map] in PO. injection PO as P1.
      cbn [product_charged] in CH. split; [exact CH|]. split; [auto|]. exists 0. split; [lia|].
      assert (l2 * x_d1q x <= 0) by nia. lia. }
  destruct SP as (((TB & TQ) & XB & XQ & XL) & EL & dq & QV & DQ).
  unfold PropMig.product_base, product_quote in TB, TQ. rewrite EPf, ET in TB, TQ. rewrite ET in DQ.
  rewrite XB, XQ, XL, ET in L2. pose proof Q128_pos as Q0.
  assert (B1 : 0 < x_d1b x) by (destruct TB; nia).
  assert (A1 : 0 < (t1 + dead) * price) by (apply Z.mul_pos_pos; lia).
  assert (B2 : 0 < x_d1q x) by (destruct TQ; nia).
  unfold calculate_liquidity_delta in L2. apply bind_ok in L2. destruct L2 as (lb & HB & L2).
  apply bind_ok in L2. destruct L2 as (lq & HQ & L2).
  apply mul_div_cast128_down in HB, HQ. destruct HB as (HB & _), HQ as (HQ & _). apply Ok_inj in L2.
  apply (product_untaken_arith eb eq price s2 (t1 + dead) (x_d1b x) (x_d1q x) l2 dq); auto; try lia.
  rewrite <- (div_ge _ _ _ B1), <- (div_ge _ _ _ B2). lia.
Qed.

(** ** Case: two positions, everything is taken *)
Example C69_case_product : reachable readyC /\ c_migrated_collect_mode (w_config readyC) = 2
  /\ exists w' first second, exec readyC (OMigrateV2 x_case_c 1700010000) = Ok w'
     /\ w_positions w' = [first; second] /\ product_charged x_case_c (w_positions w')
     /\ 0 <= quote_untaken readyC (OMigrateV2 x_case_c 1700010000) <= 1.
Proof.
  split; [apply reachC|]. split; [vm_compute; congruence|].
  destruct (exec readyC (OMigrateV2 x_case_c 1700010000)) as [w'|e] eqn:H.
  2: { exfalso. assert (X : is_ok (exec readyC (OMigrateV2 x_case_c 1700010000)) = true) by (vm_compute; reflexivity).
       rewrite H in X. discriminate. }
  assert (E : (do w' <- exec readyC (OMigrateV2 x_case_c 1700010000) ;; Ok (map (fun p => (po_total p, po_price p)) (w_positions w')))
    = Ok [(16440424709908767768472114401107, 1032825514542420218); (16440424707931963194253232780101, 1032825514542420218)])
    by (vm_compute; reflexivity).
  rewrite H in E. cbn [bind] in E. apply Ok_inj in E.
  destruct (w_positions w') as [|f [|g [|? ?]]] eqn:P; cbn [map] in E; try discriminate E.
  assert (E1 : po_total f = 16440424709908767768472114401107) by congruence.
  assert (E2 : po_price f = 1032825514542420218) by congruence.
  assert (E3 : po_total g = 16440424707931963194253232780101) by congruence.
  exists w', f, g. split; [reflexivity|]. split; [exact P|]. rewrite P. split.
  - cbn [product_charged]. unfold damm_as_specified, damm_takes, damm_adds, PropMig.product_base, product_quote, ceil_frac.
    rewrite E1, E2, E3. vm_compute. repeat split; congruence.
  - vm_compute. split; congruence.
Qed.

Print Assumptions C69_product_takes_all.
