(** * Model of the metadata accounts, byte by byte.

    instructions/partner/ix_create_partner_metadata.rs, instructions/creator/ix_create_virtual_pool_metadata.rs,
    state/partner_metadata.rs, state/virtual_pool_metadata.rs, and the closing of legacy operator accounts
    (instructions/admin/ix_close_claim_protocol_fee_operator.rs), on top of the accounts of AcctModel.

    The Borsh encoding and the account initialization of Anchor are restated from their public
    description. Rent, and the event authority, are omitted (for rent see LampModel). *)
From Coq Require Import ZArith List Bool.
From Verif Require Import Base MathModel CurveModel FeeModel ConfigModel PoolModel TxModel SystemModel AcctModel.
Import ListNotations.
Open Scope Z_scope.

(** ** Bytes *)
Definition is_byte (b : Z) : bool := (0 <=? b) && (b <? 256).

(** Rust's [String::from_utf8]: no overlong forms, no surrogates, nothing above 10FFFF. *)
Definition cont (b : Z) : bool := (128 <=? b) && (b <=? 191).
Fixpoint utf8 (l : list Z) : bool :=
  match l with
  | [] => true
  | a :: r =>
    if (0 <=? a) && (a <=? 127) then utf8 r
    else if (194 <=? a) && (a <=? 223) then
      match r with b :: r => cont b && utf8 r | _ => false end
    else if (224 <=? a) && (a <=? 239) then
      match r with
      | b :: c :: r =>
        cont b && cont c && (negb (a =? 224) || (160 <=? b)) && (negb (a =? 237) || (b <=? 159)) && utf8 r
      | _ => false
      end
    else if (240 <=? a) && (a <=? 244) then
      match r with
      | b :: c :: d :: r =>
        cont b && cont c && cont d && (negb (a =? 240) || (144 <=? b)) && (negb (a =? 244) || (b <=? 143))
        && utf8 r
      | _ => false
      end
    else false
  end.

(** Borsh: u32, little endian. *)
Definition put_u32 (n : Z) : list Z := [n mod 256; n / 256 mod 256; n / 65536 mod 256; n / 16777216 mod 256].
Definition get_u32 (l : list Z) : option (Z * list Z) :=
  match l with
  | a :: b :: c :: d :: r => Some (a + 256 * b + 65536 * c + 16777216 * d, r)
  | _ => None
  end.
(** Borsh: fixed-size arrays. *)
Definition get_array (n : nat) (l : list Z) : option (list Z * list Z) :=
  if Nat.leb n (length l) then Some (firstn n l, skipn n l) else None.
(** Borsh: strings, length first. *)
Definition put_string (s : list Z) : list Z := put_u32 (Z.of_nat (length s)) ++ s.
Definition get_string (l : list Z) : option (list Z * list Z) :=
  match get_u32 l with
  | Some (n, r) =>
    if n <=? Z.of_nat (length r)
    then let s := firstn (Z.to_nat n) r in if utf8 s then Some (s, skipn (Z.to_nat n) r) else None
    else None
  | None => None
  end.

(** ** The arguments: ix_create_partner_metadata.rs:6-13, ix_create_virtual_pool_metadata.rs:6-13 *)
Record md_params := mkMdParams { mp_padding : list Z; mp_name : list Z; mp_website : list Z; mp_logo : list Z }.
Definition get_params (data : list Z) : option md_params :=
  match get_array 96 data with
  | None => None
  | Some (pad, r) =>
    match get_string r with
    | None => None
    | Some (n, r) =>
      match get_string r with
      | None => None
      | Some (w, r) =>
        match get_string r with
        | None => None
        | Some (l, _) => Some (mkMdParams pad n w l)
        end
      end
    end
  end.

(** ** The accounts: state/partner_metadata.rs:4-18, state/virtual_pool_metadata.rs:4-18. [md_key] is the
    fee claimer, or the pool; [md_padding] is [u128; 6], as bytes. *)
Record md := mkMd { md_key : list Z; md_padding : list Z; md_name : list Z; md_website : list Z; md_logo : list Z }.

Inductive kind := KPartner | KPool.
(** scripts/idl/release_0.1.6.json: the discriminators. *)
Definition discriminator (k : kind) : list Z :=
  match k with
  | KPartner => [68; 68; 130; 19; 16; 209; 98; 156]
  | KPool => [217; 37; 82; 250; 43; 47; 228; 254]
  end.

(** Anchor: discriminator, then the fields in order. *)
Definition put_md (k : kind) (m : md) : list Z :=
  discriminator k ++ md_key m ++ md_padding m ++ put_string (md_name m) ++ put_string (md_website m)
  ++ put_string (md_logo m).

(** state/partner_metadata.rs:20-32, state/virtual_pool_metadata.rs:20-32 [space], and the 8 bytes added
    by the [space =] constraints. *)
Definition md_space (p : md_params) : Z :=
  8 + (32 + 16 * 6 + 4 + Z.of_nat (length (mp_name p)) + 4 + Z.of_nat (length (mp_website p))
       + 4 + Z.of_nat (length (mp_logo p))).

(** Runtime: an instruction called by another one creates accounts of at most this size. *)
Definition MAX_CREATED : Z := 10240.

(** Anchor [init] and the exit of the handler: a zeroed account of the given size, of which the encoding
    overwrites the front. The handler sets the key and the strings; the padding of the account stays
    zero whatever the padding of the arguments. *)
Definition init_md (k : kind) (key : list Z) (p : md_params) : res (list Z) :=
  do _ <- require (md_space p <=? MAX_CREATED) EOther ;;
  let m := mkMd key (repeat 0 96) (mp_name p) (mp_website p) (mp_logo p) in
  let bytes := put_md k m in
  do _ <- require (Z.of_nat (length bytes) <=? md_space p) EOther ;;
  Ok (bytes ++ repeat 0 (Z.to_nat (md_space p) - length bytes)).

(** ** The chain: the accounts of AcctModel, and the metadata accounts (their data) *)
Record site := mkSite {
  s_bank : bank;
  s_partner : addr -> option (list Z);   (* seeds: prefix, fee claimer *)
  s_pool : addr -> option (list Z);      (* seeds: prefix, pool *)
  s_legacy : list Z                      (* the operators of the legacy ClaimFeeOperator accounts *)
}.

Definition putd (f : addr -> option (list Z)) (a : addr) (d : list Z) : addr -> option (list Z) :=
  fun y => if addr_dec a y then Some d else f y.

(** [signers]: the addresses that signed the transaction. *)
Definition signed (signers : list Z) (k : Z) : res unit := require (existsb (fun s => s =? k) signers) EInvalidAccount.

(** ix_create_partner_metadata.rs:15-54 *)
Definition exec_partner_md (key32 : addr -> list Z) (s : site) (signers : list Z) (claimer payer : Z) (data : list Z)
  : res site :=
  do _ <- require (forallb is_byte data) EOther ;;
  do p <- ok_or (get_params data) EOther ;;
  do _ <- signed signers payer ;;
  do _ <- signed signers claimer ;;
  do _ <- require (negb (is_some (s_partner s (Ext claimer)))) EOther ;;
  do d <- init_md KPartner (key32 (Ext claimer)) p ;;
  Ok (mkSite (s_bank s) (putd (s_partner s) (Ext claimer) d) (s_pool s) (s_legacy s)).

(** ix_create_virtual_pool_metadata.rs:15-60, lib.rs:130-136, access_control.rs:33-40 *)
Definition exec_pool_md (key32 : addr -> list Z) (s : site) (signers : list Z) (pool : addr) (creator payer : Z)
  (data : list Z) : res site :=
  do _ <- require (forallb is_byte data) EOther ;;
  do p <- ok_or (get_params data) EOther ;;
  do a <- load_pool (s_bank s) pool ;;
  do _ <- signed signers creator ;;
  do _ <- signed signers payer ;;
  do _ <- require (negb (is_some (s_pool s pool))) EOther ;;
  do _ <- require (p_creator (pa_pool a) =? creator) EUnauthorized ;;
  do d <- init_md KPool (key32 pool) p ;;
  Ok (mkSite (s_bank s) (s_partner s) (putd (s_pool s) pool d) (s_legacy s)).

(** ix_close_claim_protocol_fee_operator.rs:5-34, lib.rs:50-55 *)
Definition exec_close_legacy (s : site) (signers : list Z) (signer who : Z) : res site :=
  do _ <- signed signers signer ;;
  do _ <- admin (s_bank s) signer ;;
  do _ <- require (existsb (fun k => k =? who) (s_legacy s)) EOther ;;
  Ok (mkSite (s_bank s) (s_partner s) (s_pool s) (filter (fun k => negb (k =? who)) (s_legacy s))).

(** Every instruction: those of AcctModel, and the three above. *)
Inductive minstr :=
  | MBank (i : instr)
  | MPartner (signers : list Z) (claimer payer : Z) (data : list Z)
  | MPool (signers : list Z) (pool : addr) (creator payer : Z) (data : list Z)
  | MCloseLegacy (signers : list Z) (signer who : Z).

Definition mix (key32 : addr -> list Z) (s : site) (i : minstr) : res site :=
  match i with
  | MBank i => do b <- ix (s_bank s) i ;; Ok (mkSite b (s_partner s) (s_pool s) (s_legacy s))
  | MPartner g c p d => exec_partner_md key32 s g c p d
  | MPool g a c p d => exec_pool_md key32 s g a c p d
  | MCloseLegacy g k w => exec_close_legacy s g k w
  end.
Definition mstep (key32 : addr -> list Z) (s : site) (i : minstr) : site :=
  match mix key32 s i with Ok s' => s' | Err _ => s end.
Definition mrun (key32 : addr -> list Z) (s : site) (is : list minstr) : site := fold_left (mstep key32) is s.

(** Before anything happened, except that legacy operator accounts may exist. *)
Definition mgenesis (admins : list Z) (treasury : Z) (legacy : list Z) : site :=
  mkSite (genesis admins treasury) (fun _ => None) (fun _ => None) legacy.
