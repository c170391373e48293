(** * Metadata accounts: C70 *)
From Coq Require Import ZArith List Bool Lia ZifyBool.
From Verif Require Import Base MathModel CurveModel FeeModel ConfigModel PoolModel TxModel SystemModel AcctModel
  Lib AcctSpec PropAcct MetaModel.
Import ListNotations.
Open Scope Z_scope.

(** ** Specification *)

(** Reading an account as the published layout says: 8 bytes that tell the type, 32 bytes of address,
    96 reserved bytes, three strings (4 bytes of length, then UTF-8), and nothing after that. *)
Definition read_md (k : kind) (d : list Z) : option md :=
  match get_array 8 d with
  | Some (disc, d) =>
    if list_eq_dec Z.eq_dec disc (discriminator k) then
      match get_array 32 d with
      | Some (key, d) =>
        match get_array 96 d with
        | Some (pad, d) =>
          match get_string d with
          | Some (n, d) =>
            match get_string d with
            | Some (w, d) =>
              match get_string d with
              | Some (l, []) => Some (mkMd key pad n w l)
              | _ => None
              end
            | _ => None
            end
          | _ => None
          end
        | _ => None
        end
      | _ => None
      end
    else None
  | _ => None
  end.

(** The arguments of an instruction that gives these three strings. *)
Definition arguments (padding name website logo : list Z) : list Z :=
  padding ++ put_string name ++ put_string website ++ put_string logo.

(** A text: characters (Unicode scalar values), each encoded in one to four bytes (UTF-8). *)
Definition scalar (u : Z) : Prop := 0 <= u < 55296 \/ 57344 <= u < 1114112.
Definition encode (u : Z) : list Z :=
  if u <? 128 then [u]
  else if u <? 2048 then [192 + u / 64; 128 + u mod 64]
  else if u <? 65536 then [224 + u / 4096; 128 + u / 64 mod 64; 128 + u mod 64]
  else [240 + u / 262144; 128 + u / 4096 mod 64; 128 + u / 64 mod 64; 128 + u mod 64].
Definition text (s : list Z) : Prop := exists chars, Forall scalar chars /\ s = flat_map encode chars.

Lemma digits64 x y z t : 0 <= x -> 0 <= y < 64 -> 0 <= z < 64 -> 0 <= t < 64 ->
  let u := x * 262144 + y * 4096 + z * 64 + t in
  u / 262144 = x /\ u / 4096 mod 64 = y /\ u / 64 mod 64 = z /\ u mod 64 = t.
Proof.
  intros X Y Z T u.
  assert (E1 : u / 64 = x * 4096 + y * 64 + z) by (symmetry; apply (Z.div_unique u 64 _ t); unfold u; lia).
  assert (E2 : u / 4096 = x * 64 + y) by (symmetry; apply (Z.div_unique u 4096 _ (z * 64 + t)); unfold u; lia).
  assert (E3 : u / 262144 = x) by (symmetry; apply (Z.div_unique u 262144 _ (y * 4096 + z * 64 + t)); unfold u; lia).
  rewrite E1, E2. split; [exact E3|].
  split; [symmetry; apply (Z.mod_unique _ 64 x); lia|].
  split; [symmetry; apply (Z.mod_unique _ 64 (x * 64 + y)); lia|].
  symmetry; apply (Z.mod_unique _ 64 (x * 4096 + y * 64 + z)); unfold u; lia.
Qed.

Lemma utf8_encode u r : scalar u -> utf8 (encode u ++ r) = utf8 r.
Proof.
  intros S. unfold encode.
  assert (U : 0 <= u < 1114112) by (unfold scalar in S; lia).
  pose proof (Z.div_mod u 64 ltac:(lia)) as D1. pose proof (Z.mod_pos_bound u 64 ltac:(lia)) as M1.
  pose proof (Z.div_mod (u / 64) 64 ltac:(lia)) as D2. pose proof (Z.mod_pos_bound (u / 64) 64 ltac:(lia)) as M2.
  pose proof (Z.div_mod (u / 64 / 64) 64 ltac:(lia)) as D3. pose proof (Z.mod_pos_bound (u / 64 / 64) 64 ltac:(lia)) as M3.
  replace (u / 4096) with (u / 64 / 64) in * by (rewrite Z.div_div by lia; reflexivity).
  replace (u / 262144) with (u / 64 / 64 / 64) in * by (rewrite !Z.div_div by lia; reflexivity).
  assert (N : 0 <= u / 64 / 64 / 64) by (repeat apply Z.div_pos; lia).
  set (d := u / 64 / 64 / 64) in *. set (c := (u / 64 / 64) mod 64) in *. set (b := (u / 64) mod 64) in *.
  set (a := u mod 64) in *. rewrite D3 in D2. rewrite D2 in D1. clearbody a b c.
  destruct (u <? 128) eqn:E1.
  { cbn [app utf8]. replace ((0 <=? u) && (u <=? 127)) with true by lia. reflexivity. }
  destruct (u <? 2048) eqn:E2.
  { assert (HV : u / 64 = 64 * (64 * d + c) + b) by lia. clearbody d. rewrite HV. cbn [app utf8]. unfold cont.
    replace ((0 <=? 192 + (64 * (64 * d + c) + b)) && (192 + (64 * (64 * d + c) + b) <=? 127)) with false by lia.
    replace ((194 <=? 192 + (64 * (64 * d + c) + b)) && (192 + (64 * (64 * d + c) + b) <=? 223)) with true by lia.
    replace ((128 <=? 128 + a) && (128 + a <=? 191)) with true by lia. reflexivity. }
  destruct (u <? 65536) eqn:E3.
  { assert (HV : u / 64 / 64 = 64 * d + c) by lia. clearbody d. rewrite HV. cbn [app utf8]. unfold cont.
    set (h := 224 + (64 * d + c)) in *. assert (HB : 224 <= h <= 239) by (unfold h; lia).
    replace ((0 <=? h) && (h <=? 127)) with false by lia. replace ((194 <=? h) && (h <=? 223)) with false by lia.
    replace ((224 <=? h) && (h <=? 239)) with true by lia.
    replace ((128 <=? 128 + b) && (128 + b <=? 191)) with true by lia.
    replace ((128 <=? 128 + a) && (128 + a <=? 191)) with true by lia.
    assert (X1 : negb (h =? 224) || (160 <=? 128 + b) = true) by (unfold h, scalar in *; lia).
    assert (X2 : negb (h =? 237) || (128 + b <=? 159) = true) by (unfold h, scalar in *; lia).
    rewrite X1, X2. reflexivity. }
  clearbody d. cbn [app utf8]. unfold cont. set (h := 240 + d) in *. assert (HB : 240 <= h <= 244) by (unfold h; lia).
  replace ((0 <=? h) && (h <=? 127)) with false by lia. replace ((194 <=? h) && (h <=? 223)) with false by lia.
  replace ((224 <=? h) && (h <=? 239)) with false by lia. replace ((240 <=? h) && (h <=? 244)) with true by lia.
  replace ((128 <=? 128 + c) && (128 + c <=? 191)) with true by lia.
  replace ((128 <=? 128 + b) && (128 + b <=? 191)) with true by lia.
  replace ((128 <=? 128 + a) && (128 + a <=? 191)) with true by lia.
  assert (X1 : negb (h =? 240) || (144 <=? 128 + c) = true) by (unfold h in *; lia).
  assert (X2 : negb (h =? 244) || (128 + c <=? 143) = true) by (unfold h in *; lia).
  rewrite X1, X2. reflexivity.
Qed.

(** The program's test accepts exactly the texts. *)
Lemma utf8_text s : utf8 s = true <-> text s.
Proof.
  split.
  - remember (length s) as n eqn:E. assert (L : (length s <= n)%nat) by lia. clear E. revert s L.
    induction n as [|n IH]; intros s L H.
    { destruct s; [exists []; split; [constructor|reflexivity]|simpl in L; lia]. }
    destruct s as [|a r]; [exists []; split; [constructor|reflexivity]|]. cbn [utf8 length] in *.
    assert (ADD : forall u t, scalar u -> a :: r = encode u ++ t -> (length t <= n)%nat -> utf8 t = true -> text (a :: r)).
    { intros u t S EQ LT UT. destruct (IH t LT UT) as (cs & F & ->). exists (u :: cs). split; [constructor; auto|exact EQ]. }
    destruct ((0 <=? a) && (a <=? 127)) eqn:A.
    { apply (ADD a r); [left; lia| |lia|exact H]. unfold encode. replace (a <? 128) with true by lia. reflexivity. }
    destruct ((194 <=? a) && (a <=? 223)) eqn:B.
    { destruct r as [|b r]; [discriminate|]. apply andb_true_iff in H. destruct H as (H & U). unfold cont in H.
      destruct (digits64 0 0 (a - 192) (b - 128) ltac:(lia) ltac:(lia) ltac:(lia) ltac:(lia)) as (D1 & D2 & D3 & D4).
      set (u := 0 * 262144 + 0 * 4096 + (a - 192) * 64 + (b - 128)) in *.
      apply (ADD u r); [left; unfold u; lia| |cbn [length] in L; lia|exact U]. unfold encode.
      replace (u <? 128) with false by (unfold u; lia). replace (u <? 2048) with true by (unfold u; lia). rewrite D4.
      rewrite Z.mod_small in D3. 2:{ split; [apply Z.div_pos; unfold u; lia|]. apply Z.div_lt_upper_bound; unfold u; lia. }
      rewrite D3. cbn [app]. do 2 f_equal; [lia|]. f_equal. lia. }
    destruct ((224 <=? a) && (a <=? 239)) eqn:C.
    { destruct r as [|b [|c r]]; try discriminate. apply andb_true_iff in H. destruct H as (H & U). unfold cont in H.
      destruct (digits64 0 (a - 224) (b - 128) (c - 128) ltac:(lia) ltac:(lia) ltac:(lia) ltac:(lia)) as (D1 & D2 & D3 & D4).
      set (u := 0 * 262144 + (a - 224) * 4096 + (b - 128) * 64 + (c - 128)) in *.
      apply (ADD u r); [unfold scalar, u; lia| |cbn [length] in L; lia|exact U]. unfold encode.
      replace (u <? 128) with false by (unfold u; lia). replace (u <? 2048) with false by (unfold u; lia).
      replace (u <? 65536) with true by (unfold u; lia). rewrite D3, D4.
      rewrite Z.mod_small in D2. 2:{ split; [apply Z.div_pos; unfold u; lia|]. apply Z.div_lt_upper_bound; unfold u; lia. }
      rewrite D2. cbn [app]. repeat (apply (f_equal2 cons); [lia|]). reflexivity. }
    destruct ((240 <=? a) && (a <=? 244)) eqn:D; [|discriminate].
    destruct r as [|b [|c [|d r]]]; try discriminate. apply andb_true_iff in H. destruct H as (H & U). unfold cont in H.
    destruct (digits64 (a - 240) (b - 128) (c - 128) (d - 128) ltac:(lia) ltac:(lia) ltac:(lia) ltac:(lia)) as (D1 & D2 & D3 & D4).
    set (u := (a - 240) * 262144 + (b - 128) * 4096 + (c - 128) * 64 + (d - 128)) in *.
    apply (ADD u r); [unfold scalar, u; lia| |cbn [length] in L; lia|exact U]. unfold encode.
    replace (u <? 128) with false by (unfold u; lia). replace (u <? 2048) with false by (unfold u; lia).
    replace (u <? 65536) with false by (unfold u; lia). rewrite D1, D2, D3, D4.
    cbn [app]. repeat (apply (f_equal2 cons); [lia|]). reflexivity.
  - intros (cs & F & ->). induction F as [|u cs S F IH]; [reflexivity|]. cbn [flat_map]. rewrite utf8_encode by exact S. exact IH.
Qed.

(** ** Encoding *)
Lemma utf8_bytes s : utf8 s = true -> forallb is_byte s = true.
Proof.
  remember (length s) as n eqn:E. assert (L : (length s <= n)%nat) by lia. clear E. revert s L.
  induction n as [|n IH]; intros s L H.
  - destruct s; [reflexivity|simpl in L; lia].
  - destruct s as [|a r]; [reflexivity|]. cbn [utf8 length] in *.
    destruct ((0 <=? a) && (a <=? 127)) eqn:A.
    { cbn [forallb]. rewrite IH by (auto; lia). unfold is_byte. lia. }
    destruct ((194 <=? a) && (a <=? 223)) eqn:B.
    { destruct r as [|b r]; [discriminate|]. unfold cont in H. cbn [forallb length] in *.
      rewrite IH by (lia || (apply andb_true_iff in H; tauto)). unfold is_byte. lia. }
    destruct ((224 <=? a) && (a <=? 239)) eqn:C.
    { destruct r as [|b [|c r]]; try discriminate. cbn [forallb length] in *.
      apply andb_true_iff in H. destruct H as (H & U). rewrite IH by (auto; lia).
      unfold cont, is_byte in *. lia. }
    destruct ((240 <=? a) && (a <=? 244)) eqn:D; [|discriminate].
    destruct r as [|b [|c [|d r]]]; try discriminate. cbn [forallb length] in *.
    apply andb_true_iff in H. destruct H as (H & U). rewrite IH by (auto; lia).
    unfold cont, is_byte in *. lia.
Qed.

Lemma get_put_u32 n r : 0 <= n < 2 ^ 32 -> get_u32 (put_u32 n ++ r) = Some (n, r).
Proof.
  intros H. unfold put_u32. cbn [app get_u32]. do 2 f_equal.
  change (2 ^ 32) with 4294967296 in H.
  pose proof (Z.div_mod n 256 ltac:(lia)). 
  replace (n / 65536) with (n / 256 / 256) by (rewrite Z.div_div by lia; reflexivity).
  replace (n / 16777216) with (n / 256 / 256 / 256) by (rewrite !Z.div_div by lia; reflexivity).
  pose proof (Z.div_mod (n / 256) 256 ltac:(lia)).
  pose proof (Z.div_mod (n / 256 / 256) 256 ltac:(lia)).
  rewrite (Z.mod_small (n / 256 / 256 / 256)); [lia|].
  split; [repeat apply Z.div_pos; lia|]. repeat (apply Z.div_lt_upper_bound; [lia|]). lia.
Qed.

Lemma get_put_string s r : utf8 s = true -> Z.of_nat (length s) < 2 ^ 32 -> get_string (put_string s ++ r) = Some (s, r).
Proof.
  intros U L. unfold get_string, put_string. rewrite <- app_assoc, get_put_u32 by lia.
  rewrite app_length. destruct (_ <=? _) eqn:E; [|lia].
  rewrite Nat2Z.id, firstn_app, Nat.sub_diag, firstn_all, firstn_O, app_nil_r, U.
  rewrite skipn_app, skipn_all, Nat.sub_diag. reflexivity.
Qed.

Lemma get_app n a r : length a = n -> get_array n (a ++ r) = Some (a, r).
Proof.
  intros L. unfold get_array. rewrite app_length. destruct (Nat.leb n (length a + length r)) eqn:E.
  - subst n. rewrite firstn_app, Nat.sub_diag, firstn_all, firstn_O, app_nil_r, skipn_app, skipn_all, Nat.sub_diag. reflexivity.
  - apply Nat.leb_gt in E. lia.
Qed.

Lemma get_string_utf8 l s r : get_string l = Some (s, r) -> utf8 s = true.
Proof.
  unfold get_string. destruct (get_u32 l) as [[n q]|]; [|discriminate]. destruct (_ <=? _); [|discriminate].
  destruct (utf8 _) eqn:U; [|discriminate]. intros H. inversion H; subst. exact U.
Qed.

Lemma get_params_texts data p : get_params data = Some p ->
  utf8 (mp_name p) = true /\ utf8 (mp_website p) = true /\ utf8 (mp_logo p) = true.
Proof.
  unfold get_params. destruct (get_array 96 data) as [[pad r]|]; [|discriminate].
  destruct (get_string r) as [[n r1]|] eqn:N; [|discriminate].
  destruct (get_string r1) as [[w r2]|] eqn:W; [|discriminate].
  destruct (get_string r2) as [[l r3]|] eqn:L; [|discriminate].
  intros H. inversion H; subst. cbn [mp_name mp_website mp_logo]. split; [|split]; eapply get_string_utf8; eassumption.
Qed.

Lemma put_u32_length n : length (put_u32 n) = 4%nat.
Proof. reflexivity. Qed.
Lemma put_string_length s : length (put_string s) = (4 + length s)%nat.
Proof. unfold put_string. rewrite app_length. reflexivity. Qed.

Lemma put_md_length k m : length (md_key m) = 32%nat -> length (md_padding m) = 96%nat ->
  Z.of_nat (length (put_md k m)) = md_space (mkMdParams [] (md_name m) (md_website m) (md_logo m)).
Proof.
  intros K P. unfold put_md, md_space. rewrite !app_length, K, P, !put_string_length. cbn [mp_name mp_website mp_logo].
  replace (length (discriminator k)) with 8%nat by (destruct k; reflexivity). lia.
Qed.

Lemma read_put k m : length (md_key m) = 32%nat -> length (md_padding m) = 96%nat ->
  utf8 (md_name m) = true -> utf8 (md_website m) = true -> utf8 (md_logo m) = true ->
  Z.of_nat (length (md_name m)) < 2 ^ 32 -> Z.of_nat (length (md_website m)) < 2 ^ 32 ->
  Z.of_nat (length (md_logo m)) < 2 ^ 32 ->
  read_md k (put_md k m) = Some m.
Proof.
  intros K P N W L N' W' L'. unfold read_md, put_md.
  rewrite get_app by (destruct k; reflexivity).
  destruct (list_eq_dec Z.eq_dec _ _) as [_|X]; [|elim X; reflexivity].
  rewrite get_app by exact K. rewrite get_app by exact P.
  rewrite get_put_string by assumption. rewrite get_put_string by assumption.
  rewrite <- (app_nil_r (put_string (md_logo m))), get_put_string by assumption. destruct m; reflexivity.
Qed.

(** An account is created exactly when it is small enough; it is filled to the last byte. *)
Lemma init_md_ok k key p d : length key = 32%nat -> init_md k key p = Ok d ->
  d = put_md k (mkMd key (repeat 0 96) (mp_name p) (mp_website p) (mp_logo p))
  /\ Z.of_nat (length d) = md_space p /\ md_space p <= MAX_CREATED.
Proof.
  intros K H. unfold init_md in H. apply bind_ok in H. destruct H as (u & S & H). apply require_ok in S.
  cbv zeta in H. apply bind_ok in H. destruct H as (u' & _ & H). apply Ok_inj in H.
  pose proof (put_md_length k (mkMd key (repeat 0 96) (mp_name p) (mp_website p) (mp_logo p)) K eq_refl) as L.
  cbn [md_name md_website md_logo] in L. change (md_space (mkMdParams [] _ _ _)) with (md_space p) in L.
  set (b := put_md k _) in *. clearbody b.
  replace (Z.to_nat (md_space p) - length b)%nat with 0%nat in H by lia.
  cbn [repeat] in H. rewrite app_nil_r in H. subst d. repeat split; auto; lia.
Qed.

Lemma init_md_exists k key p : length key = 32%nat -> md_space p <= MAX_CREATED -> exists d, init_md k key p = Ok d.
Proof.
  intros K S. unfold init_md. rewrite (proj2 (Z.leb_le _ _) S). cbn [require bind]. cbv zeta.
  pose proof (put_md_length k (mkMd key (repeat 0 96) (mp_name p) (mp_website p) (mp_logo p)) K eq_refl) as L.
  cbn [md_name md_website md_logo] in L. change (md_space (mkMdParams [] _ _ _)) with (md_space p) in L.
  rewrite (proj2 (Z.leb_le _ _)) by lia. cbn [require bind]. eauto.
Qed.

Lemma init_md_reads k key data p d : length key = 32%nat -> get_params data = Some p -> init_md k key p = Ok d ->
  read_md k d = Some (mkMd key (repeat 0 96) (mp_name p) (mp_website p) (mp_logo p)).
Proof.
  intros K G H. destruct (init_md_ok _ _ _ _ K H) as (-> & _ & S). destruct (get_params_texts _ _ G) as (A & B & C).
  unfold md_space, MAX_CREATED in S. change (2 ^ 32) with 4294967296 in *.
  apply read_put; cbn [md_key md_padding md_name md_website md_logo]; auto; change (2 ^ 32) with 4294967296; lia.
Qed.

Lemma signed_ok signers k u : signed signers k = Ok u -> In k signers.
Proof.
  unfold signed. intros H. apply require_ok in H. apply existsb_exists in H. destruct H as (x & I & E).
  apply Z.eqb_eq in E. subst. exact I.
Qed.
Lemma signed_in signers k : In k signers -> signed signers k = Ok tt.
Proof.
  intros I. unfold signed. rewrite (proj2 (existsb_exists _ _)); [reflexivity|]. exists k. split; [exact I|lia].
Qed.

Lemma partner_inv key32 s g c p data s' : exec_partner_md key32 s g c p data = Ok s' ->
  exists a d, get_params data = Some a /\ In c g /\ In p g /\ s_partner s (Ext c) = None
   /\ init_md KPartner (key32 (Ext c)) a = Ok d
   /\ s' = mkSite (s_bank s) (putd (s_partner s) (Ext c) d) (s_pool s) (s_legacy s).
Proof.
  intros H. unfold exec_partner_md in H. apply bind_ok in H. destruct H as (u & _ & H).
  apply bind_ok in H. destruct H as (a & A & H). unfold ok_or in A. destruct (get_params data) as [a'|]; [|discriminate].
  apply Ok_inj in A. subst a'.
  apply bind_ok in H. destruct H as (u1 & P & H). apply signed_ok in P.
  apply bind_ok in H. destruct H as (u2 & C & H). apply signed_ok in C.
  apply bind_ok in H. destruct H as (u3 & N & H). apply require_ok in N.
  apply bind_ok in H. destruct H as (d & D & H). apply Ok_inj in H.
  exists a, d. destruct (s_partner s (Ext c)); [discriminate|]. auto 10.
Qed.

Lemma pool_inv key32 s g a c p data s' : exec_pool_md key32 s g a c p data = Ok s' ->
  exists q d x, get_params data = Some q /\ In c g /\ In p g /\ s_pool s a = None
   /\ load_pool (s_bank s) a = Ok x /\ p_creator (pa_pool x) = c
   /\ init_md KPool (key32 a) q = Ok d
   /\ s' = mkSite (s_bank s) (s_partner s) (putd (s_pool s) a d) (s_legacy s).
Proof.
  intros H. unfold exec_pool_md in H. apply bind_ok in H. destruct H as (u & _ & H).
  apply bind_ok in H. destruct H as (q & A & H). unfold ok_or in A. destruct (get_params data) as [a'|]; [|discriminate].
  apply Ok_inj in A. subst a'.
  apply bind_ok in H. destruct H as (x & X & H).
  apply bind_ok in H. destruct H as (u2 & C & H). apply signed_ok in C.
  apply bind_ok in H. destruct H as (u1 & P & H). apply signed_ok in P.
  apply bind_ok in H. destruct H as (u3 & N & H). apply require_ok in N.
  apply bind_ok in H. destruct H as (u4 & CR & H). apply require_ok in CR.
  apply bind_ok in H. destruct H as (d & D & H). apply Ok_inj in H.
  exists q, d, x. destruct (s_pool s a); [discriminate|]. repeat split; auto. lia.
Qed.

(** ** C70 *)

(** An accepted instruction writes one account. Reading that account gives back the address it is
    about and the three texts as they were given. It was signed by the party it describes. *)
Theorem C70_partner_metadata : forall key32 s signers claimer payer data s',
  (forall a, length (key32 a) = 32%nat) ->
  mix key32 s (MPartner signers claimer payer data) = Ok s' ->
  In claimer signers /\ In payer signers /\ s_partner s (Ext claimer) = None
  /\ exists args bytes, get_params data = Some args /\ s_partner s' (Ext claimer) = Some bytes
     /\ read_md KPartner bytes
        = Some (mkMd (key32 (Ext claimer)) (repeat 0 96) (mp_name args) (mp_website args) (mp_logo args))
     /\ (forall a, a <> Ext claimer -> s_partner s' a = s_partner s a)
     /\ s_pool s' = s_pool s /\ s_bank s' = s_bank s /\ s_legacy s' = s_legacy s.
Proof.
  intros key32 s g c p data s' K H. cbn [mix] in H. apply partner_inv in H.
  destruct H as (a & d & G & C & P & N & D & ->). split; [exact C|]. split; [exact P|]. split; [exact N|].
  exists a, d. split; [exact G|]. cbn [s_partner s_pool s_bank s_legacy]. unfold putd.
  destruct (addr_dec (Ext c) (Ext c)) as [_|X]; [|elim X; reflexivity]. split; [reflexivity|].
  split; [eapply init_md_reads; eauto|]. split; [|auto].
  intros y Y. destruct (addr_dec (Ext c) y) as [<-|_]; [elim Y; reflexivity|reflexivity].
Qed.

(** Likewise for a pool, by whoever is its creator at that moment. *)
Theorem C70_pool_metadata : forall key32 s signers pool creator payer data s',
  (forall a, length (key32 a) = 32%nat) ->
  mix key32 s (MPool signers pool creator payer data) = Ok s' ->
  In creator signers /\ In payer signers /\ s_pool s pool = None
  /\ (exists x, b_acc (s_bank s) pool = Some (APool x) /\ p_creator (pa_pool x) = creator)
  /\ exists args bytes, get_params data = Some args /\ s_pool s' pool = Some bytes
     /\ read_md KPool bytes
        = Some (mkMd (key32 pool) (repeat 0 96) (mp_name args) (mp_website args) (mp_logo args))
     /\ (forall a, a <> pool -> s_pool s' a = s_pool s a)
     /\ s_partner s' = s_partner s /\ s_bank s' = s_bank s /\ s_legacy s' = s_legacy s.
Proof.
  intros key32 s g a c p data s' K H. cbn [mix] in H. apply pool_inv in H.
  destruct H as (q & d & x & G & C & P & N & X & CR & D & ->). split; [exact C|]. split; [exact P|]. split; [exact N|].
  split.
  { exists x. split; [|exact CR]. unfold load_pool in X. destruct (b_acc (s_bank s) a) as [[| |y| |]|]; try discriminate.
    apply Ok_inj in X. subst. reflexivity. }
  exists q, d. split; [exact G|]. cbn [s_partner s_pool s_bank s_legacy]. unfold putd.
  destruct (addr_dec a a) as [_|Y]; [|elim Y; reflexivity]. split; [reflexivity|].
  split; [eapply init_md_reads; eauto|]. split; [|auto].
  intros y Y. destruct (addr_dec a y) as [<-|_]; [elim Y; reflexivity|reflexivity].
Qed.

(** Three texts that fit an account can always be published: the space computed for the account is what
    the encoding needs. *)
Lemma get_arguments pad n w l : length pad = 96%nat -> text n -> text w -> text l ->
  Z.of_nat (length n) + Z.of_nat (length w) + Z.of_nat (length l) <= MAX_CREATED - 148 ->
  get_params (arguments pad n w l) = Some (mkMdParams pad n w l).
Proof.
  intros P N W L S. apply utf8_text in N, W, L. unfold MAX_CREATED in S. unfold get_params, arguments. rewrite get_app by exact P.
  assert (E : 10240 < 2 ^ 32) by reflexivity.
  rewrite get_put_string by (auto; lia). rewrite get_put_string by (auto; lia).
  rewrite <- (app_nil_r (put_string l)), get_put_string by (auto; lia). reflexivity.
Qed.

(** Conversely, whatever instruction data the program understands is the encoding of three texts, read as
    they are (further bytes are ignored). *)
Lemma put_get_u32 l n r : forallb is_byte l = true -> get_u32 l = Some (n, r) -> l = put_u32 n ++ r /\ forallb is_byte r = true /\ 0 <= n.
Proof.
  intros B H. destruct l as [|a [|b [|c [|d t]]]]; try discriminate.
  change (Some (a + 256 * b + 65536 * c + 16777216 * d, t) = Some (n, r)) in H.
  assert (EN : a + 256 * b + 65536 * c + 16777216 * d = n) by congruence.
  assert (ER : t = r) by congruence. subst r. clear H.
  cbn [forallb] in B. unfold is_byte in B.
  assert (BB : 0 <= a < 256 /\ 0 <= b < 256 /\ 0 <= c < 256 /\ 0 <= d < 256 /\ forallb is_byte t = true) by (unfold is_byte; lia).
  clear B. destruct BB as (A & B & C & D & T). split; [|split; [exact T|lia]]. unfold put_u32.
  assert (E1 : n / 256 = b + 256 * c + 65536 * d) by (symmetry; apply (Z.div_unique n 256 _ a); lia).
  assert (E2 : n / 65536 = c + 256 * d) by (symmetry; apply (Z.div_unique n 65536 _ (a + 256 * b)); lia).
  assert (E3 : n / 16777216 = d) by (symmetry; apply (Z.div_unique n 16777216 _ (a + 256 * b + 65536 * c)); lia).
  rewrite E1, E2, E3. cbn [app].
  apply (f_equal2 cons); [apply (Z.mod_unique n 256 (b + 256 * c + 65536 * d)); lia|].
  apply (f_equal2 cons); [apply (Z.mod_unique _ 256 (c + 256 * d)); lia|].
  apply (f_equal2 cons); [apply (Z.mod_unique _ 256 d); lia|].
  apply (f_equal2 cons); [apply (Z.mod_unique _ 256 0); lia|reflexivity].
Qed.

Lemma put_get_string l s r : forallb is_byte l = true -> get_string l = Some (s, r) ->
  text s /\ l = put_string s ++ r /\ forallb is_byte r = true.
Proof.
  intros B H. pose proof (get_string_utf8 _ _ _ H) as U. apply utf8_text in U. split; [exact U|].
  unfold get_string in H. destruct (get_u32 l) as [[n t]|] eqn:G; [|discriminate].
  destruct (put_get_u32 _ _ _ B G) as (-> & BT & N0). destruct (n <=? Z.of_nat (length t)) eqn:LE; [|discriminate].
  destruct (utf8 _); [|discriminate]. injection H as E1 E2.
  assert (LN : Z.of_nat (length s) = n) by (rewrite <- E1, firstn_length; lia).
  unfold put_string. rewrite LN, <- app_assoc. rewrite <- E1, <- E2, firstn_skipn. split; [reflexivity|].
  rewrite <- (firstn_skipn (Z.to_nat n) t), forallb_app in BT. apply andb_true_iff in BT. tauto.
Qed.

Theorem C70_reads_what_was_sent : forall data args, forallb is_byte data = true -> get_params data = Some args ->
  text (mp_name args) /\ text (mp_website args) /\ text (mp_logo args)
  /\ exists padding ignored, length padding = 96%nat
     /\ data = arguments padding (mp_name args) (mp_website args) (mp_logo args) ++ ignored.
Proof.
  intros data args B H. unfold get_params in H. destruct (get_array 96 data) as [[pad r0]|] eqn:GA; [|discriminate].
  unfold get_array in GA. destruct (Nat.leb 96 (length data)) eqn:LE; [|discriminate].
  assert (E1 : firstn 96 data = pad) by congruence. assert (E2 : skipn 96 data = r0) by congruence. clear GA.
  apply Nat.leb_le in LE.
  assert (B0 : forallb is_byte r0 = true).
  { rewrite <- (firstn_skipn 96 data), forallb_app in B. apply andb_true_iff in B. rewrite <- E2. tauto. }
  destruct (get_string r0) as [[n r1]|] eqn:G1; [|discriminate]. destruct (put_get_string _ _ _ B0 G1) as (T1 & R1 & B1).
  destruct (get_string r1) as [[w r2]|] eqn:G2; [|discriminate]. destruct (put_get_string _ _ _ B1 G2) as (T2 & R2 & B2).
  destruct (get_string r2) as [[l r3]|] eqn:G3; [|discriminate]. destruct (put_get_string _ _ _ B2 G3) as (T3 & R3 & B3).
  injection H as <-. cbn [mp_name mp_website mp_logo]. split; [exact T1|]. split; [exact T2|]. split; [exact T3|].
  exists pad, r3. split; [rewrite <- E1; apply firstn_length_le; exact LE|].
  unfold arguments. rewrite <- !app_assoc, <- R3, <- R2, <- R1, <- E1, <- E2. symmetry. apply firstn_skipn.
Qed.

Lemma arguments_bytes pad n w l : forallb is_byte pad = true -> text n -> text w -> text l ->
  forallb is_byte (arguments pad n w l) = true.
Proof.
  intros P N W L. apply utf8_text in N, W, L. unfold arguments, put_string. rewrite !forallb_app.
  assert (U : forall z, forallb is_byte (put_u32 z) = true).
  { intros z. unfold put_u32, is_byte. cbn [forallb].
    repeat match goal with |- context [?x mod 256] => pose proof (Z.mod_pos_bound x 256 ltac:(lia));
      generalize dependent (x mod 256); intros end. lia. }
  rewrite !U, (utf8_bytes n N), (utf8_bytes w W), (utf8_bytes l L), P. reflexivity.
Qed.

Theorem C70_can_publish : forall key32 s signers padding name website logo,
  (forall a, length (key32 a) = 32%nat) ->
  length padding = 96%nat -> forallb is_byte padding = true -> text name -> text website -> text logo ->
  Z.of_nat (length name) + Z.of_nat (length website) + Z.of_nat (length logo) <= 10092 ->
  let data := arguments padding name website logo in
  (forall claimer payer, In claimer signers -> In payer signers -> s_partner s (Ext claimer) = None ->
     exists s', mix key32 s (MPartner signers claimer payer data) = Ok s')
  /\ (forall pool x creator payer, In creator signers -> In payer signers -> s_pool s pool = None ->
       b_acc (s_bank s) pool = Some (APool x) -> p_creator (pa_pool x) = creator ->
     exists s', mix key32 s (MPool signers pool creator payer data) = Ok s').
Proof.
  intros key32 s g pad n w l K P PB N W L S data.
  assert (G : get_params data = Some (mkMdParams pad n w l)) by (apply get_arguments; auto; unfold MAX_CREATED; lia).
  assert (B : forallb is_byte data = true) by (apply arguments_bytes; auto).
  assert (SP : md_space (mkMdParams pad n w l) <= MAX_CREATED).
  { unfold md_space, MAX_CREATED. cbn [mp_name mp_website mp_logo]. lia. }
  split.
  - intros c p C PP NO. cbn [mix]. unfold exec_partner_md. rewrite B, G. cbn [require ok_or bind].
    rewrite !signed_in by assumption. cbn [bind]. rewrite NO. cbn [is_some negb require bind].
    destruct (init_md_exists KPartner (key32 (Ext c)) _ (K _) SP) as (d & ->). cbn [bind]. eauto.
  - intros a x c p C PP NO A CR. cbn [mix]. unfold exec_pool_md, load_pool. rewrite B, G, A. cbn [require ok_or bind].
    rewrite !signed_in by assumption. cbn [bind]. rewrite NO, CR, Z.eqb_refl. cbn [is_some negb require bind].
    destruct (init_md_exists KPool (key32 a) _ (K _) SP) as (d & ->). cbn [bind]. eauto.
Qed.

(** Written once: nothing changes or removes it, not even its author or a later creator of the pool. *)
Lemma mstep_keeps key32 s i :
  (forall a d, s_partner s a = Some d -> s_partner (mstep key32 s i) a = Some d)
  /\ (forall a d, s_pool s a = Some d -> s_pool (mstep key32 s i) a = Some d).
Proof.
  unfold mstep. destruct (mix key32 s i) as [s'|e] eqn:H; [|auto].
  destruct i as [i|g c p data|g a c p data|g k w]; cbn [mix] in H.
  - apply bind_ok in H. destruct H as (b & _ & H). apply Ok_inj in H. subst s'. auto.
  - apply partner_inv in H. destruct H as (q & d & _ & _ & _ & N & _ & ->). cbn [s_partner s_pool]. split; [|auto].
    intros y z Y. unfold putd. destruct (addr_dec (Ext c) y) as [<-|_]; [congruence|exact Y].
  - apply pool_inv in H. destruct H as (q & d & x & _ & _ & _ & N & _ & _ & _ & ->). cbn [s_partner s_pool].
    split; [auto|]. intros y z Y. unfold putd. destruct (addr_dec a y) as [<-|_]; [congruence|exact Y].
  - unfold exec_close_legacy in H. apply bind_ok in H. destruct H as (u & _ & H).
    apply bind_ok in H. destruct H as (u1 & _ & H). apply bind_ok in H. destruct H as (u2 & _ & H).
    apply Ok_inj in H. subst s'. auto.
Qed.

Theorem C70_written_once : forall key32 is s,
  (forall a d, s_partner s a = Some d -> s_partner (mrun key32 s is) a = Some d)
  /\ (forall a d, s_pool s a = Some d -> s_pool (mrun key32 s is) a = Some d).
Proof.
  intros key32 is. induction is as [|i is IH]; intros s; [auto|].
  change (mrun key32 s (i :: is)) with (mrun key32 (mstep key32 s i) is).
  destruct (IH (mstep key32 s i)) as (A & B). destruct (mstep_keeps key32 s i) as (C & D). split; eauto.
Qed.

(** Authentic: whatever metadata is found, after any history, was published by an instruction signed by
    the partner (for a pool: by the one who was its creator then), and says what they said. *)
Definition from_partner (key32 : addr -> list Z) (s0 : site) (is : list minstr) (a : addr) (bytes : list Z) : Prop :=
  exists before after signers claimer payer data args,
    is = before ++ MPartner signers claimer payer data :: after
    /\ a = Ext claimer /\ In claimer signers /\ get_params data = Some args
    /\ read_md KPartner bytes
       = Some (mkMd (key32 a) (repeat 0 96) (mp_name args) (mp_website args) (mp_logo args)).
Definition from_creator (key32 : addr -> list Z) (s0 : site) (is : list minstr) (a : addr) (bytes : list Z) : Prop :=
  exists before after signers creator payer data args x,
    is = before ++ MPool signers a creator payer data :: after
    /\ In creator signers /\ get_params data = Some args
    /\ b_acc (s_bank (mrun key32 s0 before)) a = Some (APool x) /\ p_creator (pa_pool x) = creator
    /\ read_md KPool bytes
       = Some (mkMd (key32 a) (repeat 0 96) (mp_name args) (mp_website args) (mp_logo args)).

Theorem C70_authentic : forall key32 admins treasury legacy is,
  (forall a, length (key32 a) = 32%nat) ->
  let s0 := mgenesis admins treasury legacy in
  (forall a bytes, s_partner (mrun key32 s0 is) a = Some bytes -> from_partner key32 s0 is a bytes)
  /\ (forall a bytes, s_pool (mrun key32 s0 is) a = Some bytes -> from_creator key32 s0 is a bytes).
Proof.
  intros key32 admins treasury legacy is K s0. induction is as [|i is (IH1 & IH2)] using rev_ind.
  - split; intros a b H; discriminate.
  - assert (X1 : forall a b, from_partner key32 s0 is a b -> from_partner key32 s0 (is ++ [i]) a b).
    { intros a b (p & q & r). exists p, (q ++ [i]). destruct r as (g & c & y & d & e & -> & r).
      exists g, c, y, d, e. split; [rewrite <- app_assoc; reflexivity|exact r]. }
    assert (X2 : forall a b, from_creator key32 s0 is a b -> from_creator key32 s0 (is ++ [i]) a b).
    { intros a b (p & q & r). exists p, (q ++ [i]). destruct r as (g & c & y & d & e & x & -> & r).
      exists g, c, y, d, e, x. split; [rewrite <- app_assoc; reflexivity|exact r]. }
    unfold mrun in *. rewrite fold_left_app. cbn [fold_left]. set (s := fold_left (mstep key32) is s0) in *.
    unfold mstep. destruct (mix key32 s i) as [s'|e] eqn:H; [|split; eauto].
    destruct i as [i|g c p data|g a c p data|g k w].
    + cbn [mix] in H. apply bind_ok in H. destruct H as (b & _ & H). apply Ok_inj in H. subst s'.
      cbn [s_partner s_pool]. split; eauto.
    + apply (C70_partner_metadata _ _ _ _ _ _ _ K) in H. destruct H as (C & _ & _ & args & bytes & G & W & RD & F & Q & _).
      rewrite Q. split; [|eauto]. intros a b A. destruct (addr_dec a (Ext c)) as [->|NE].
      * rewrite W in A. inversion A; subst b. exists is, [], g, c, p, data, args. auto.
      * rewrite F in A by assumption. eauto.
    + apply (C70_pool_metadata _ _ _ _ _ _ _ _ K) in H.
      destruct H as (C & _ & _ & (x & XA & XC) & args & bytes & G & W & RD & F & Q & _).
      rewrite Q. split; [eauto|]. intros y b A. destruct (addr_dec y a) as [->|NE].
      * rewrite W in A. inversion A; subst b. exists is, [], g, c, p, data, args, x. auto 10.
      * rewrite F in A by assumption. eauto.
    + cbn [mix] in H. unfold exec_close_legacy in H. apply bind_ok in H. destruct H as (u & _ & H).
      apply bind_ok in H. destruct H as (u1 & _ & H). apply bind_ok in H. destruct H as (u2 & _ & H).
      apply Ok_inj in H. subst s'. cbn [s_partner s_pool]. split; eauto.
Qed.

(** No effect on money: the accounts of AcctModel (pools, configs, tokens, operators) are what they
    would be without the metadata and legacy instructions. *)
Definition bank_instrs (is : list minstr) : list instr :=
  flat_map (fun i => match i with MBank i => [i] | _ => [] end) is.

Theorem C70_no_other_effect : forall key32 is s, s_bank (mrun key32 s is) = brun (s_bank s) (bank_instrs is).
Proof.
  intros key32 is. induction is as [|i is IH]; intros s; [reflexivity|].
  change (mrun key32 s (i :: is)) with (mrun key32 (mstep key32 s i) is). rewrite IH.
  unfold bank_instrs. cbn [flat_map]. unfold brun. rewrite fold_left_app. f_equal.
  unfold mstep. destruct i as [i|g c p data|g a c p data|g k w].
  - cbn [mix fold_left]. unfold bstep. destruct (ix (s_bank s) i); reflexivity.
  - destruct (mix _ _ _) as [s'|] eqn:H; [|reflexivity]. cbn [mix] in H. apply partner_inv in H.
    destruct H as (q & d & _ & _ & _ & _ & _ & ->). reflexivity.
  - destruct (mix _ _ _) as [s'|] eqn:H; [|reflexivity]. cbn [mix] in H. apply pool_inv in H.
    destruct H as (q & d & x & _ & _ & _ & _ & _ & _ & _ & ->). reflexivity.
  - destruct (mix _ _ _) as [s'|] eqn:H; [|reflexivity]. cbn [mix] in H.
    unfold exec_close_legacy in H. apply bind_ok in H. destruct H as (u & _ & H).
    apply bind_ok in H. destruct H as (u1 & _ & H). apply bind_ok in H. destruct H as (u2 & _ & H).
    apply Ok_inj in H. subst s'. reflexivity.
Qed.

(** Legacy operator accounts only ever disappear, and only when an admin signs. *)
Theorem C70_legacy_operators : forall key32 s i s', mix key32 s i = Ok s' ->
  s_legacy s' = s_legacy s
  \/ exists signers signer who, i = MCloseLegacy signers signer who /\ In signer signers
       /\ In signer (b_admins (s_bank s)) /\ In who (s_legacy s)
       /\ (forall k, In k (s_legacy s') <-> In k (s_legacy s) /\ k <> who).
Proof.
  intros key32 s i s' H. destruct i as [i|g c p data|g a c p data|g k w]; cbn [mix] in H.
  - apply bind_ok in H. destruct H as (b & _ & H). apply Ok_inj in H. subst s'. auto.
  - apply partner_inv in H. destruct H as (q & d & _ & _ & _ & _ & _ & ->). auto.
  - apply pool_inv in H. destruct H as (q & d & x & _ & _ & _ & _ & _ & _ & _ & ->). auto.
  - right. exists g, k, w. unfold exec_close_legacy in H. apply bind_ok in H. destruct H as (u & S & H).
    apply signed_ok in S. apply bind_ok in H. destruct H as (u1 & A & H). unfold admin in A. apply require_ok in A.
    apply existsb_exists in A. destruct A as (z & ZI & ZE). apply Z.eqb_eq in ZE. subst z.
    apply bind_ok in H. destruct H as (u2 & WI & H). apply require_ok in WI.
    apply existsb_exists in WI. destruct WI as (z & WI & ZE). apply Z.eqb_eq in ZE. subst z.
    apply Ok_inj in H. subst s'. cbn [s_legacy].
    split; [reflexivity|]. split; [exact S|]. split; [exact ZI|]. split; [exact WI|].
    intros j. rewrite filter_In. split; intros (J & E); split; auto; lia.
Qed.

(** ** Cases *)
(** "Zoë": five bytes, one character of two bytes; a website and a logo. *)
Definition case_key (a : addr) : list Z := match a with Ext k => repeat (k mod 256) 32 | _ => repeat 255 32 end.
Definition case_data : list Z :=
  arguments (repeat 7 96) [90; 111; 195; 171] [104; 116; 116; 112; 115; 58; 47; 47; 122] [].

Example C70_case : exists s',
  mix case_key (mgenesis [1] 9 [5; 6]) (MPartner [22; 40] 22 40 case_data) = Ok s'
  /\ (forall a, length (case_key a) = 32%nat)
  /\ option_map (@length Z) (s_partner s' (Ext 22)) = Some 161%nat
  /\ match s_partner s' (Ext 22) with
     | Some d => read_md KPartner d = Some (mkMd (repeat 22 32) (repeat 0 96) [90; 111; 195; 171]
                   [104; 116; 116; 112; 115; 58; 47; 47; 122] [])
                 /\ read_md KPool d = None
     | None => False
     end
  /\ mix case_key s' (MPartner [22; 40] 22 40 case_data) = Err EOther
  /\ (do s2 <- mix case_key s' (MCloseLegacy [1] 1 5) ;; Ok (s_legacy s2)) = Ok [6].
Proof.
  eexists. split; [vm_compute; reflexivity|]. split.
  { intros [k| | | | |]; reflexivity. }
  vm_compute. auto 10.
Qed.

(** Texts that are not UTF-8, arguments cut short and a missing signature are refused. *)
Example C70_case_refused :
  is_ok (mix case_key (mgenesis [1] 9 []) (MPartner [22; 40] 22 40 (arguments (repeat 7 96) [195] [] []))) = false
  /\ is_ok (mix case_key (mgenesis [1] 9 []) (MPartner [22; 40] 22 40 (removelast case_data))) = false
  /\ is_ok (mix case_key (mgenesis [1] 9 []) (MPartner [40] 22 40 case_data)) = false
  /\ is_ok (mix case_key (mgenesis [1] 9 [5]) (MCloseLegacy [2] 2 5)) = false.
Proof. vm_compute. auto. Qed.

(** A pool in use: its creator publishes its metadata, somebody else cannot. *)
Definition publish (signers : list Z) (creator : Z) : res (option nat * bool) :=
  let i := MPool signers pool12 creator 40 case_data in
  do s' <- mix case_key (mkSite market (fun _ => None) (fun _ => None) []) i ;;
  Ok (option_map (@length Z) (s_pool s' pool12), is_ok (mix case_key s' i)).

Example C70_case_pool :
  history market /\ publish [44; 40] 44 = Ok (Some 161%nat, false)
  /\ is_ok (publish [40] 44) = false /\ is_ok (publish [40] 40) = false.
Proof. split; [exact market_history|]. vm_compute. auto. Qed.

Print Assumptions C70_partner_metadata.
Print Assumptions C70_pool_metadata.
Print Assumptions C70_can_publish.
Print Assumptions C70_reads_what_was_sent.
Print Assumptions C70_written_once.
Print Assumptions C70_authentic.
Print Assumptions C70_no_other_effect.
Print Assumptions C70_legacy_operators.
