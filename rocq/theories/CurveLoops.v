(** * The four curve loops are sequences of pool-favouring moves along the curve. *)
From Coq Require Import ZArith QArith List Bool Lia ZifyBool.
From Verif Require Import Base MathModel CurveModel FeeModel ConfigModel PoolModel TxModel
  SystemModel Spec Lib CurveProofs.
Import ListNotations.
Open Scope Z_scope.

Lemma moves_incl low curve low' curve' x y dq db :
  (forall L a b, inseg low curve L a b -> inseg low' curve' L a b) ->
  moves low curve x y dq db -> moves low' curve' x y dq db.
Proof.
  intros I H; induction H; [constructor|].
  eapply mv_cons; [|eauto]. destruct H as (L & ? & ? & ?). exists L; auto.
Qed.

Lemma moves_cons_curve low p l rest x y dq db :
  moves p rest x y dq db -> moves low ((p, l) :: rest) x y dq db.
Proof. apply moves_incl. intros; simpl; auto. Qed.

Lemma inseg_head low p l rest a b : low <= a -> a <= b -> b <= p -> inseg low ((p, l) :: rest) l a b.
Proof. intros; simpl; left; lia. Qed.

(** ** Padding *)
Lemma curve_wf_pos low curve p l : 0 <= low -> curve_wf low curve -> In (p, l) curve -> 0 < p /\ 0 < l.
Proof.
  revert low; induction curve as [|[p0 l0] rest IH]; simpl; intros low ? W I; [contradiction|].
  destruct W as (? & ? & ?). destruct I as [I|I]; [inversion I; subst; lia|].
  eapply (IH p0); eauto; lia.
Qed.

Lemma buy_in_pad n stop curve cur amount out :
  buy_in_loop stop (curve ++ repeat (0, 0) n) cur amount out = buy_in_loop stop curve cur amount out.
Proof.
  revert cur amount out; induction curve as [|[p l] rest IH]; intros; simpl.
  - destruct n; simpl; reflexivity.
  - destruct ((p =? 0) || (l =? 0)); [reflexivity|].
    destruct (cur <? Z.min stop p); [|apply IH].
    destruct (delta_quote_256 cur (Z.min stop p) l Up) as [mx|]; simpl; [|reflexivity].
    destruct (amount <? mx); [reflexivity|].
    destruct (delta_base cur (Z.min stop p) l Down) as [o|]; simpl; [|reflexivity].
    destruct (sadd U64_MAX out o) as [o'|]; simpl; [|reflexivity].
    destruct (scast U64_MAX mx) as [mx'|]; simpl; [|reflexivity].
    destruct (ssub amount mx') as [am|]; simpl; [|reflexivity].
    destruct (Z.min stop p =? stop); [reflexivity|apply IH].
Qed.

Lemma buy_out_pad n curve cur amount inp :
  buy_out_loop (curve ++ repeat (0, 0) n) cur amount inp = buy_out_loop curve cur amount inp.
Proof.
  revert cur amount inp; induction curve as [|[p l] rest IH]; intros; simpl.
  - destruct n; simpl; reflexivity.
  - destruct ((p =? 0) || (l =? 0)); [reflexivity|].
    destruct (cur <? p); [|apply IH].
    destruct (delta_base_256 cur p l Down) as [mx|]; simpl; [|reflexivity].
    destruct (amount <? mx); [reflexivity|].
    destruct (delta_quote cur p l Up) as [o|]; simpl; [|reflexivity].
    destruct (sadd U64_MAX inp o) as [o'|]; simpl; [|reflexivity].
    destruct (scast U64_MAX mx) as [mx'|]; simpl; [|reflexivity].
    destruct (ssub amount mx') as [am|]; simpl; [|reflexivity].
    apply IH.
Qed.

(** ** Buy, exact in *)
Lemma buy_in_stopped stop curve cur amount out r :
  stop <= cur -> buy_in_loop stop curve cur amount out = Ok r -> r = mkFromIn out cur amount.
Proof.
  intros S; revert amount out; induction curve as [|[p l] rest IH]; simpl; intros amount out H; minv; auto.
  destruct ((p =? 0) || (l =? 0)); minv; auto.
  destruct (cur <? Z.min stop p) eqn:E; [lia|]. eauto.
Qed.

Lemma buy_in_loop_moves stop curve : forall low cur amount out r,
  0 < low -> curve_wf low curve -> low <= cur -> cur <= stop -> 0 <= amount ->
  buy_in_loop stop curve cur amount out = Ok r ->
  moves low curve cur (fi_price r) (amount - fi_left r) (- (fi_out r - out))
  /\ cur <= fi_price r <= stop /\ 0 <= fi_left r <= amount /\ out <= fi_out r.
Proof.
  induction curve as [|[p l] rest IH]; intros low cur amount out r Hlow W Hcur Hst Ha H; simpl in H.
  - minv. simpl. split; [|lia]. eapply mv_eq; [apply mv_nil|lia|lia].
  - destruct W as (W1 & W2 & W3).
    destruct ((p =? 0) || (l =? 0)) eqn:Z0; [lia|].
    destruct (cur <? Z.min stop p) eqn:C1.
    + minv. destruct (amount <? v) eqn:C2; minv; simpl.
      * match goal with
        | A : delta_quote_256 _ _ _ _ = Ok _, B : next_price_from_input _ _ _ _ = Ok _,
          C : delta_base _ _ _ _ = Ok _ |- _ =>
            pose proof (buy_in_part cur (Z.min stop p) l amount v _ _ ltac:(lia) W2 Ha A ltac:(lia) B C)
              as (X1 & X2 & X3 & X4)
        end.
        split; [|lia].
        apply mv_one. replace (amount - 0) with amount by lia.
        replace (- (out + v1 - out)) with (- v1) by lia.
        apply step_buy with l; try lia. apply inseg_head; lia.
      * pose proof (buy_full _ _ _ _ _ E E0 W2) as (X1 & X2 & X3 & X4).
        assert (S1 : step1 low ((p, l) :: rest) cur (Z.min stop p) v (- v0)).
        { apply step_buy with l; try lia. apply inseg_head; lia. }
        destruct (Z.min stop p =? stop) eqn:C3; minv; simpl.
        -- split; [|lia]. eapply mv_eq; [apply mv_one, S1 | lia | lia].
        -- assert (Hm : Z.min stop p = p) by lia. rewrite Hm in *.
           apply (IH p) in H; try lia; auto. destruct H as (M & ? & ? & ?).
           split; [|lia].
           apply moves_cons_curve with (low := low) (l := l) in M.
           eapply mv_eq; [eapply mv_cons; [exact S1|exact M] | lia | lia].
    + assert (p <= cur \/ cur = stop) as [?|?] by lia.
      * apply (IH p) in H; try lia; auto. destruct H as (M & ? & ? & ?). split; [|lia].
        apply moves_cons_curve; auto.
      * apply buy_in_stopped in H; [|lia]. subst r; simpl. split; [|lia].
        eapply mv_eq; [apply mv_nil|lia|lia].
Qed.

(** ** Buy, exact out *)
Lemma buy_out_loop_moves curve : forall low cur amount inp cur' amount' inp',
  0 < low -> curve_wf low curve -> low <= cur -> 0 <= amount ->
  buy_out_loop curve cur amount inp = Ok (cur', amount', inp') ->
  moves low curve cur cur' (inp' - inp) (- (amount - amount'))
  /\ cur <= cur' /\ 0 <= amount' <= amount /\ inp <= inp'
  /\ (cur <= top_price low curve -> cur' <= top_price low curve).
Proof.
  induction curve as [|[p l] rest IH]; intros low cur amount inp cur' amount' inp' Hlow W Hcur Ha H;
    simpl in H.
  - minv. inversion H; subst. split; [|lia]. eapply mv_eq; [apply mv_nil|lia|lia].
  - destruct W as (W1 & W2 & W3).
    assert (T : p <= top_price p rest).
    { clear - W3. revert p W3; induction rest as [|[q m] r IH]; simpl; intros; [lia|].
      destruct W3 as (? & ? & ?). apply IH in H1. lia. }
    destruct ((p =? 0) || (l =? 0)) eqn:Z0; [lia|].
    destruct (cur <? p) eqn:C1.
    + minv. destruct (amount <? v) eqn:C2; minv; simpl.
      * inversion H; subst; clear H.
        match goal with
        | A : delta_base_256 _ _ _ _ = Ok _, B : next_price_from_output _ _ _ _ = Ok _,
          C : delta_quote _ _ _ _ = Ok _ |- _ =>
            pose proof (buy_out_part cur p l amount v _ _ ltac:(lia) W2 Ha A ltac:(lia) B C)
              as (X1 & X2 & X3 & X4)
        end.
        split; [|lia].
        apply mv_one. replace (inp + v1 - inp) with v1 by lia.
        replace (- (amount - 0)) with (- amount) by lia.
        apply step_buy with l; try lia. apply inseg_head; lia.
      * pose proof (buy_out_full _ _ _ _ _ E E0 W2) as (X1 & X2 & X3 & X4).
        assert (S1 : step1 low ((p, l) :: rest) cur p v0 (- v)).
        { apply step_buy with l; try lia. apply inseg_head; lia. }
        apply (IH p) in H; try lia; auto. destruct H as (M & ? & ? & ? & ?).
        split; [|simpl; lia].
        apply moves_cons_curve with (low := low) (l := l) in M.
        eapply mv_eq; [eapply mv_cons; [exact S1|exact M] | lia | lia].
    + apply (IH p) in H; try lia; auto. destruct H as (M & ? & ? & ? & ?). split; [|simpl; lia].
      apply moves_cons_curve; auto.
Qed.

(** ** Sells: the reversed list of segments *)

(** [segs] is a list of descending segments covering [[start, top]]. *)
Fixpoint desc (low : Z) (curve : list point) (start l0 : Z) (segs : list (Z * Z * Z)) (top : Z)
  : Prop :=
  match segs with
  | [] => inseg low curve l0 start top
  | (p, l, l') :: rest =>
      (p = 0 \/ l = 0) /\ desc low curve start l0 rest top
      \/ 0 < p /\ 0 < l /\ start <= p
         /\ ((inseg low curve l' p top /\ 0 < l') \/ top <= p)
         /\ desc low curve start l0 rest p
  end.

Lemma desc_mono low curve start l0 segs : forall top top',
  start <= top' -> top' <= top -> desc low curve start l0 segs top ->
  desc low curve start l0 segs top'.
Proof.
  induction segs as [|[[p l] l'] rest IH]; simpl; intros top top' H1 H2 D.
  - eapply inseg_sub; eauto; lia.
  - destruct D as [(A & B)|(A & B & C & D & E)]; [left; split; eauto|right].
    repeat split; auto. destruct (Z_le_gt_dec top' p); [right; lia|].
    destruct D as [[D D']|D]; [left|right; lia]. split; auto.
    eapply inseg_sub; [exact D|lia|lia|lia].
Qed.

Lemma sell_in_loop_moves low curve start l0 segs : forall cur amount out r top,
  0 < start -> start <= cur -> cur <= top -> 0 <= amount ->
  desc low curve start l0 segs top ->
  sell_in_loop segs cur amount out = Ok r ->
  moves low curve cur (fi_price r) (- (fi_out r - out)) (amount - fi_left r)
  /\ start <= fi_price r <= cur /\ 0 <= fi_left r <= amount /\ out <= fi_out r
  /\ (fi_left r <> 0 -> inseg low curve l0 start (fi_price r)).
Proof.
  induction segs as [|[[p l] l'] rest IH]; intros cur amount out r top Hs Hc Ht Ha D H; simpl in H, D.
  - minv; simpl. split; [|split; [lia|split; [lia|split; [lia|]]]].
    + eapply mv_eq; [apply mv_nil|lia|lia].
    + intros _. eapply inseg_sub; [exact D|lia|lia|lia].
  - destruct ((p =? 0) || (l =? 0)) eqn:Z0.
    + destruct D as [(A & B)|(A & B & C & D & E)]; [|lia]. eapply IH with (top := top); eauto.
    + destruct D as [(A & B)|(A & B & C & D & E)]; [lia|].
      destruct (p <? cur) eqn:C1.
      * destruct D as [[D D']|D]; [|lia].
        assert (Dc : inseg low curve l' p cur) by (eapply inseg_sub; [exact D|lia|lia|lia]).
        minv. destruct (amount <? v) eqn:C2; minv; simpl.
        -- match goal with
           | X : delta_base_256 _ _ _ _ = Ok _, Y : next_price_from_input _ _ _ _ = Ok _,
             W : delta_quote _ _ _ _ = Ok _ |- _ =>
               pose proof (sell_in_part cur p l' amount v _ _ A D' Ha X ltac:(lia) Y W)
                 as (X1 & X2 & X3 & X4)
           end.
           split; [|lia].
           apply mv_one. replace (- (out + v1 - out)) with (- v1) by lia.
           replace (amount - 0) with amount by lia.
           apply step_sell with l'; try lia. eapply inseg_sub; [exact Dc|lia|lia|lia].
        -- match goal with
           | X : delta_base_256 _ _ _ _ = Ok _, W : delta_quote _ _ _ _ = Ok _ |- _ =>
               pose proof (sell_full _ _ _ _ _ X W D') as (X1 & X2 & X3 & X4)
           end.
           eapply IH with (top := p) in H; try lia; [|exact E]. destruct H as (M & ? & ? & ? & ?).
           split; [|split; [lia|split; [lia|split; [lia|auto]]]].
           assert (S1 : step1 low curve cur p (- v0) v) by (apply step_sell with l'; auto; lia).
           eapply mv_eq; [eapply mv_cons; [exact S1|exact M] | lia | lia].
      * eapply IH with (top := p); eauto; lia.
Qed.

Lemma sell_out_loop_moves low curve start l0 segs : forall cur amount inp cur' amount' inp' top,
  0 < start -> start <= cur -> cur <= top -> 0 <= amount ->
  desc low curve start l0 segs top ->
  sell_out_loop segs cur amount inp = Ok (cur', amount', inp') ->
  moves low curve cur cur' (- (amount - amount')) (inp' - inp)
  /\ start <= cur' <= cur /\ 0 <= amount' <= amount /\ inp <= inp'
  /\ (amount' <> 0 -> inseg low curve l0 start cur').
Proof.
  induction segs as [|[[p l] l'] rest IH];
    intros cur amount inp cur' amount' inp' top Hs Hc Ht Ha D H; simpl in H, D.
  - minv; inversion H; subst; clear H. split; [|split; [lia|split; [lia|split; [lia|]]]].
    + eapply mv_eq; [apply mv_nil|lia|lia].
    + intros _. eapply inseg_sub; [exact D|lia|lia|lia].
  - destruct ((p =? 0) || (l =? 0)) eqn:Z0.
    + destruct D as [(A & B)|(A & B & C & D & E)]; [|lia]. eapply IH with (top := top); eauto.
    + destruct D as [(A & B)|(A & B & C & D & E)]; [lia|].
      destruct (p <? cur) eqn:C1.
      * destruct D as [[D D']|D]; [|lia].
        assert (Dc : inseg low curve l' p cur) by (eapply inseg_sub; [exact D|lia|lia|lia]).
        minv. destruct (amount <? v) eqn:C2; minv; simpl.
        -- inversion H; subst; clear H.
           match goal with
           | X : delta_quote_256 _ _ _ _ = Ok _, Y : next_price_from_output _ _ _ _ = Ok _,
             W : delta_base _ _ _ _ = Ok _ |- _ =>
               pose proof (sell_out_part cur p l' amount v _ _ A D' Ha X ltac:(lia) Y W)
                 as (X1 & X2 & X3 & X4)
           end.
           split; [|lia].
           apply mv_one. replace (- (amount - 0)) with (- amount) by lia.
           replace (inp + v1 - inp) with v1 by lia.
           apply step_sell with l'; try lia. eapply inseg_sub; [exact Dc|lia|lia|lia].
        -- match goal with
           | X : delta_quote_256 _ _ _ _ = Ok _, W : delta_base _ _ _ _ = Ok _ |- _ =>
               pose proof (sell_out_full _ _ _ _ _ X W D') as (X1 & X2 & X3 & X4)
           end.
           eapply IH with (top := p) in H; try lia; [|exact E]. destruct H as (M & ? & ? & ? & ?).
           split; [|split; [lia|split; [lia|split; [lia|auto]]]].
           assert (S1 : step1 low curve cur p (- v) v0) by (apply step_sell with l'; auto; lia).
           eapply mv_eq; [eapply mv_cons; [exact S1|exact M] | lia | lia].
      * eapply IH with (top := p); eauto; lia.
Qed.

(** ** The reversed segments of a curve *)
Lemma curve_wf_top low curve : curve_wf low curve -> low <= top_price low curve.
Proof.
  revert low; induction curve as [|[p l] rest IH]; simpl; intros; [lia|].
  destruct H as (? & ? & ?). apply IH in H1. lia.
Qed.

Definition is_pad (s : Z * Z * Z) : Prop := fst (fst s) = 0.

Lemma segments_repeat n : segments (repeat (0, 0) n) = repeat (0, 0, 0) (n - 1).
Proof.
  destruct n; [reflexivity|]. simpl. rewrite Nat.sub_0_r.
  induction n; [reflexivity|]. simpl. simpl in IHn. f_equal. destruct n; [reflexivity|]. apply IHn.
Qed.

Lemma desc_pad low curve start l0 n segs top :
  desc low curve start l0 segs top -> desc low curve start l0 (repeat (0, 0, 0) n ++ segs) top.
Proof. intros; induction n; simpl; auto. Qed.

(** Going down the used part of the curve, above a tail that covers the rest. *)
Lemma desc_rev low curve start l0 : forall rest p l tail,
  0 <= low -> 0 < p -> 0 < l -> start <= p ->
  (forall L a b, inseg p rest L a b -> inseg low curve L a b) ->
  curve_wf p rest ->
  desc low curve start l0 tail p ->
  desc low curve start l0 (rev (segments ((p, l) :: rest)) ++ tail) (top_price p rest).
Proof.
  induction rest as [|[p1 l1] rest IH]; intros p l tail Hlow Hp Hl Hs I W D.
  - simpl. auto.
  - destruct W as (W1 & W2 & W3).
    change (segments ((p, l) :: (p1, l1) :: rest))
      with ((p, l, l1) :: segments ((p1, l1) :: rest)).
    simpl rev. rewrite <- app_assoc. simpl app. simpl top_price.
    apply IH; auto; try lia.
    + intros. apply I. simpl. right; auto.
    + simpl. right. split; [|split; [|split; [|split]]]; auto; try lia.
      left. split; auto. apply I. simpl. left; lia.
Qed.

(** With padding the last used point is followed by zero liquidity, but the price never exceeds
    it. *)
Lemma desc_rev_pad low curve start l0 n : forall rest p l tail,
  0 <= low -> 0 < p -> 0 < l -> start <= p ->
  (forall L a b, inseg p rest L a b -> inseg low curve L a b) ->
  curve_wf p rest ->
  desc low curve start l0 tail p ->
  desc low curve start l0 (rev (segments ((p, l) :: rest ++ repeat (0, 0) n)) ++ tail)
       (top_price p rest).
Proof.
  induction rest as [|[p1 l1] rest IH]; intros p l tail Hlow Hp Hl Hs I W D.
  - simpl app. destruct n.
    + simpl. auto.
    + change (segments ((p, l) :: repeat (0, 0) (S n)))
        with ((p, l, 0) :: segments (repeat (0, 0) (S n))).
      rewrite segments_repeat. simpl rev. simpl Nat.sub. rewrite Nat.sub_0_r.
      assert (R : forall m, rev (repeat (0, 0, 0) m) = repeat (0, 0, 0) m).
      { clear. intros m. induction m; [reflexivity|]. simpl. rewrite IHm.
        clear. induction m; [reflexivity|]. simpl. f_equal. apply IHm. }
      rewrite R, <- app_assoc. apply desc_pad. simpl. right.
      split; [|split; [|split; [|split]]]; auto. right; lia.
  - destruct W as (W1 & W2 & W3).
    change (segments ((p, l) :: ((p1, l1) :: rest) ++ repeat (0, 0) n))
      with ((p, l, l1) :: segments ((p1, l1) :: rest ++ repeat (0, 0) n)).
    simpl rev. rewrite <- app_assoc. simpl app. simpl top_price.
    apply IH; auto; try lia.
    + intros. apply I. simpl. right; auto.
    + simpl. right. split; [|split; [|split; [|split]]]; auto; try lia.
      left. split; auto. apply I. simpl. left; lia.
Qed.

(** The whole padded curve of a config. *)
Lemma desc_curve start curve n p0 l0 rest :
  0 < start -> curve = (p0, l0) :: rest -> curve_wf start curve ->
  desc start curve start l0 (rev (segments (curve ++ repeat (0, 0) n))) (top_price start curve).
Proof.
  intros Hs -> (W1 & W2 & W3).
  rewrite <- (app_nil_r (rev _)). simpl top_price.
  change (((p0, l0) :: rest) ++ repeat (0, 0) n) with ((p0, l0) :: rest ++ repeat (0, 0) n).
  apply desc_rev_pad; auto; try lia.
  - intros. simpl. right; auto.
  - simpl. left. lia.
Qed.
