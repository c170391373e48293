(** * The four amount computations of a config, as moves along its curve. *)
From Coq Require Import ZArith QArith List Bool Lia ZifyBool.
From Verif Require Import Base MathModel CurveModel FeeModel ConfigModel PoolModel TxModel
  SystemModel Spec Lib CurveProofs CurveLoops Potential.
Import ListNotations.
Open Scope Z_scope.

(** What the curve of an accepted config looks like. *)
Record curve_ok (c : config) (cv : list point) : Prop := {
  co_start : 0 < c_start c;
  co_pad : exists n, c_curve c = cv ++ repeat (0, 0) n;
  co_ne : cv <> [];
  co_wf : curve_wf (c_start c) cv;
  co_mig_lo : c_start c < c_mig_price c;
  co_mig_hi : c_mig_price c <= top_price (c_start c) cv;
  co_max : top_price (c_start c) cv <= MAX_SQRT_PRICE;
  co_liq : Forall (fun pl => u128ok (snd pl)) cv
}.

Lemma calc_buy_in_moves c cv price amount r :
  curve_ok c cv -> c_start c <= price <= c_mig_price c -> 0 <= amount ->
  calc_buy_from_in c price amount (c_mig_price c) = Ok r ->
  moves (c_start c) cv price (fi_price r) (amount - fi_left r) (- fi_out r)
  /\ price <= fi_price r <= c_mig_price c /\ 0 <= fi_left r <= amount /\ 0 <= fi_out r.
Proof.
  intros [S [n P] NE W M1 M2 MX LQ] Hp Ha H. unfold calc_buy_from_in in H.
  rewrite P, buy_in_pad in H.
  apply (buy_in_loop_moves _ _ (c_start c)) in H; auto; try lia.
  replace (fi_out r - 0) with (fi_out r) in H by lia. auto.
Qed.

Lemma calc_buy_out_moves c cv price amount r :
  curve_ok c cv -> c_start c <= price <= c_mig_price c -> 0 <= amount ->
  calc_buy_from_out c price amount = Ok r ->
  moves (c_start c) cv price (fo_price r) (fo_in r) (- amount)
  /\ price <= fo_price r <= top_price (c_start c) cv /\ 0 <= fo_in r.
Proof.
  intros [S [n P] NE W M1 M2 MX LQ] Hp Ha H. unfold calc_buy_from_out in H.
  rewrite P, buy_out_pad in H. minvc. simpl in *.
  apply (buy_out_loop_moves _ (c_start c)) in E; auto; try lia.
  destruct E as (M & ? & ? & ? & ?). split; [|lia].
  eapply mv_eq; [exact M|lia|lia].
Qed.

Lemma curve_ok_first c cv :
  curve_ok c cv -> exists p0 rest, cv = (p0, first_liquidity c) :: rest /\ 0 < first_liquidity c.
Proof.
  intros [S [n P] NE W M1 M2 MX LQ]. destruct cv as [|[p0 l0] rest]; [congruence|].
  exists p0, rest. unfold first_liquidity. rewrite P. simpl. destruct W as (? & ? & ?). auto.
Qed.

Lemma calc_sell_in_moves c cv price amount r :
  curve_ok c cv -> c_start c <= price <= c_mig_price c -> 0 <= amount ->
  calc_sell_from_in c price amount = Ok r ->
  moves (c_start c) cv price (fi_price r) (- fi_out r) (amount - fi_left r)
  /\ c_start c <= fi_price r <= price /\ 0 <= fi_left r <= amount /\ 0 <= fi_out r.
Proof.
  intros K Hp Ha H. destruct (curve_ok_first _ _ K) as (p0 & rest & Ecv & Hl0).
  destruct K as [S [n P] NE W M1 M2 MX LQ]. unfold calc_sell_from_in in H. rewrite P in H.
  pose proof (desc_curve (c_start c) cv n p0 (first_liquidity c) rest S Ecv W) as D.
  apply bind_ok in H. destruct H as (r0 & E & H).
  eapply (sell_in_loop_moves (c_start c) cv (c_start c) (first_liquidity c)) with
    (top := top_price (c_start c) cv) in E; auto; try lia. destruct E as (M & B1 & B2 & B3 & B4).
  replace (fi_out r0 - 0) with (fi_out r0) in M by lia.
  destruct (fi_left r0 =? 0) eqn:Z0.
  - minv. split; [exact M|lia].
  - assert (I : inseg (c_start c) cv (first_liquidity c) (c_start c) (fi_price r0))
      by (apply B4; lia).
    minv.
    pose proof (sell_in_next (fi_price r0) (first_liquidity c) (fi_left r0) v ltac:(lia) Hl0
                  ltac:(lia) E) as (N1 & N2 & N3).
    destruct (v <? c_start c) eqn:C1; minv; simpl.
    + match goal with X : delta_quote _ _ _ _ = Ok _ |- _ => apply delta_quote_ok in X; destruct X as (Q1 & -> & Q2) end.
      match goal with X : delta_base _ _ _ _ = Ok _ |- _ => apply delta_base_ok in X; destruct X as (D1 & D2 & -> & D3) end.
      simpl divr in *.
      set (i := cdiv (first_liquidity c * (fi_price r0 - c_start c)) (c_start c * fi_price r0)) in *.
      set (o := first_liquidity c * (fi_price r0 - c_start c) / Q128) in *.
      assert (0 <= i) by (apply cdiv_nonneg; nia).
      assert (0 <= o) by (apply div_nonneg; [nia|reflexivity]).
      split; [|lia].
      eapply mv_eq.
      { eapply mv_snoc; [exact M|]. apply step_sell with (L := first_liquidity c) (dq := o) (db := i).
        - eapply inseg_sub; [exact I|lia|lia|lia].
        - apply div_lb; reflexivity.
        - apply cdiv_ub; auto. }
      all: lia.
    + match goal with X : delta_quote _ _ _ _ = Ok _ |- _ => apply delta_quote_ok in X; destruct X as (Q1 & -> & Q2) end.
      simpl divr in *.
      set (o := first_liquidity c * (fi_price r0 - v) / Q128) in *.
      assert (0 <= o) by (apply div_nonneg; [nia|reflexivity]).
      split; [|lia].
      eapply mv_eq.
      { eapply mv_snoc; [exact M|].
        apply step_sell with (L := first_liquidity c) (dq := o) (db := fi_left r0).
        - eapply inseg_sub; [exact I|lia|lia|lia].
        - apply div_lb; reflexivity.
        - lia. }
      all: lia.
Qed.

Lemma calc_sell_out_moves c cv price amount r :
  curve_ok c cv -> c_start c <= price <= c_mig_price c -> 0 <= amount ->
  calc_sell_from_out c price amount = Ok r ->
  moves (c_start c) cv price (fo_price r) (- amount) (fo_in r)
  /\ c_start c <= fo_price r <= price /\ 0 <= fo_in r.
Proof.
  intros K Hp Ha H. destruct (curve_ok_first _ _ K) as (p0 & rest & Ecv & Hl0).
  destruct K as [S [n P] NE W M1 M2 MX LQ]. unfold calc_sell_from_out in H. rewrite P in H.
  pose proof (desc_curve (c_start c) cv n p0 (first_liquidity c) rest S Ecv W) as D.
  apply bind_ok in H. destruct H as ([[cur' lft] inp'] & E & H).
  eapply (sell_out_loop_moves (c_start c) cv (c_start c) (first_liquidity c)) with
    (top := top_price (c_start c) cv) in E; auto; try lia. destruct E as (M & B1 & B2 & B3 & B4).
  replace (inp' - 0) with inp' in M by lia.
  destruct (lft =? 0) eqn:Z0; minv; simpl.
  - split; [|lia]. eapply mv_eq; [exact M|lia|lia].
  - assert (I : inseg (c_start c) cv (first_liquidity c) (c_start c) cur')
      by (apply B4; lia).
    match goal with
    | X : delta_quote_256 _ _ _ _ = Ok _, Y : next_price_from_output _ _ _ _ = Ok _,
      Z : delta_base _ _ _ _ = Ok _ |- _ =>
        pose proof (sell_out_part cur' (c_start c) (first_liquidity c) lft _ _ _ S Hl0 ltac:(lia)
                      X ltac:(lia) Y Z) as (X1 & X2 & X3 & X4)
    end.
    split; [|lia].
    eapply mv_eq.
    { eapply mv_snoc; [exact M|].
      eapply step_sell with (L := first_liquidity c) (dq := lft).
      - eapply inseg_sub; [exact I|lia|lia|lia].
      - lia.
      - exact X3. }
    all: lia.
Qed.

(** Both directions, exact-in amounts. The signs: what the pool's reserves gain. *)
Definition fi_dq (d : direction) (consumed out : Z) : Z :=
  match d with BaseToQuote => - out | QuoteToBase => consumed end.
Definition fi_db (d : direction) (consumed out : Z) : Z :=
  match d with BaseToQuote => consumed | QuoteToBase => - out end.
Definition price_moves (d : direction) (old new : Z) : Prop :=
  match d with BaseToQuote => new <= old | QuoteToBase => old <= new end.

Lemma fi_moves c cv price d amount r :
  curve_ok c cv -> c_start c <= price <= c_mig_price c -> 0 <= amount ->
  fi_of_direction c price d amount = Ok r ->
  moves (c_start c) cv price (fi_price r) (fi_dq d (amount - fi_left r) (fi_out r))
        (fi_db d (amount - fi_left r) (fi_out r))
  /\ c_start c <= fi_price r <= c_mig_price c /\ price_moves d price (fi_price r)
  /\ 0 <= fi_left r <= amount /\ 0 <= fi_out r.
Proof.
  intros K Hp Ha H. destruct d; simpl in *.
  - eapply calc_sell_in_moves in H; eauto. destruct H as (M & ? & ? & ?). split; auto; lia.
  - eapply calc_buy_in_moves in H; eauto. destruct H as (M & ? & ? & ?). split; auto; lia.
Qed.

Lemma fo_moves c cv price d amount r :
  curve_ok c cv -> c_start c <= price <= c_mig_price c -> 0 <= amount ->
  fo_of_direction c price d amount = Ok r -> fo_price r <= c_mig_price c ->
  moves (c_start c) cv price (fo_price r) (fi_dq d (fo_in r) amount) (fi_db d (fo_in r) amount)
  /\ c_start c <= fo_price r <= c_mig_price c /\ price_moves d price (fo_price r)
  /\ 0 <= fo_in r.
Proof.
  intros K Hp Ha H HM. destruct d; simpl in *.
  - eapply calc_sell_out_moves in H; eauto. destruct H as (M & ? & ?). split; auto; lia.
  - eapply calc_buy_out_moves in H; eauto. destruct H as (M & ? & ?). split; auto; lia.
Qed.
