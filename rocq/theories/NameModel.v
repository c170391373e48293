(** * What a wallet shows of the base token: name, symbol and link.
      Models process_create_token_metadata.rs (SPL tokens, through the Metaplex metadata program) and the
      metadata part of ix_initialize_virtual_pool_with_token2022.rs (inside the mint). The Metaplex and
      Token-2022 programs are not part of /repo: [nexec] restates their public behaviour. Left out: decimals,
      supply (see TokenModel), creators, collections, uses, sale flags, additional metadata fields, rent, the
      zero padding of Metaplex strings, the closing of mints with a close authority (base mints have none), and Metaplex instructions for editions and collections, none of which
      applies to a fungible mint created here. *)
From Coq Require Import ZArith List Bool.
From Verif Require Import Base MathModel CurveModel FeeModel ConfigModel TokenModel.
Import ListNotations.
Open Scope Z_scope.

(** The system program, whose address is the all-zero key: it signs nothing. *)
Definition SYSTEM : Z := 0.

(** instructions/initialize_pool/ix_initialize_virtual_pool_with_spl_token.rs:25-30, as byte strings. *)
Record label := mkLabel { l_name : list Z; l_symbol : list Z; l_uri : list Z }.

(** The part of a mint that matters here. [nm_pointer]: authority and address of the MetadataPointer extension;
    [nm_meta]: update authority and contents of the TokenMetadata extension. *)
Record nmint := mkNmint {
  nm_program : tprogram;
  nm_auth : option Z;
  nm_pointer : option (option Z * Z);
  nm_meta : option (option Z * label) }.
(** A Metaplex metadata account (there is one address per mint). *)
Record metaplex := mkMetaplex { mp_authority : Z; mp_mutable : bool; mp_label : label }.

Record nstate := mkN { n_mints : Z -> option nmint; n_plex : Z -> option metaplex }.
Definition n_empty : nstate := mkN (fun _ => None) (fun _ => None).
Definition put_mint (s : nstate) (k : Z) (m : nmint) : nstate := mkN (upd (n_mints s) k (Some m)) (n_plex s).
Definition put_plex (s : nstate) (k : Z) (p : metaplex) : nstate := mkN (n_mints s) (upd (n_plex s) k (Some p)).

(** Instructions of the two programs; the first argument signs. *)
Inductive nop :=
  | NInitMint (signer mint : Z) (m : nmint)
  | NSetMintAuthority (signer mint : Z) (new : option Z)
  (* Token-2022: metadata in the mint, and the pointer to it *)
  | NInitMeta (signer mint update : Z) (l : label)
  | NUpdateMeta (signer mint : Z) (l : label)
  | NUpdateMetaAuthority (signer mint : Z) (new : option Z)
  | NSetPointerAuthority (signer mint : Z) (new : option Z)
  | NMovePointer (signer mint address : Z)
  (* Metaplex: CreateMetadataAccountV3 and UpdateMetadataAccountV2 *)
  | NCreatePlex (signer mint update : Z) (mutable : bool) (l : label)
  | NUpdatePlex (signer mint : Z) (data : option label) (new : option Z) (mutable : option bool).

Definition nsigner (o : nop) : Z :=
  match o with
  | NInitMint k _ _ | NSetMintAuthority k _ _ | NInitMeta k _ _ _ | NUpdateMeta k _ _ | NUpdateMetaAuthority k _ _
  | NSetPointerAuthority k _ _ | NMovePointer k _ _ | NCreatePlex k _ _ _ _ | NUpdatePlex k _ _ _ _ => k
  end.

(** Metaplex: MAX_NAME_LENGTH, MAX_SYMBOL_LENGTH, MAX_URI_LENGTH. *)
Definition fits (l : label) : bool :=
  (Nat.leb (length (l_name l)) 32) && (Nat.leb (length (l_symbol l)) 10) && (Nat.leb (length (l_uri l)) 200).
(** spl_pod OptionalNonZeroPubkey: the all-zero key cannot be stored as an authority. *)
Definition storable (o : option Z) : bool := negb (is_key o SYSTEM).

Definition nexec (s : nstate) (o : nop) : res nstate :=
  match o with
  | NInitMint signer k m =>
    (* the new mint's address signs for its creation *)
    do _ <- require (signer =? k) EUnauthorized ;;
    do _ <- require (match n_mints s k with None => true | Some _ => false end) EOther ;;
    do _ <- require (match nm_meta m with None => true | Some _ => false end) EOther ;;
    do _ <- require (match nm_program m, nm_pointer m with SplToken, Some _ => false | _, _ => true end) EOther ;;
    Ok (put_mint s k m)
  | NSetMintAuthority signer k new =>
    do m <- ok_or (n_mints s k) EInvalidAccount ;;
    do _ <- require (is_key (nm_auth m) signer) EUnauthorized ;;
    Ok (put_mint s k (mkNmint (nm_program m) new (nm_pointer m) (nm_meta m)))
  | NInitMeta signer k update l =>
    do m <- ok_or (n_mints s k) EInvalidAccount ;;
    do _ <- require (is_key (nm_auth m) signer) EUnauthorized ;;
    do _ <- require (match nm_pointer m, nm_meta m with Some _, None => true | _, _ => false end) EOther ;;
    do _ <- require (storable (Some update)) EInvalidInput ;;
    Ok (put_mint s k (mkNmint (nm_program m) (nm_auth m) (nm_pointer m) (Some (Some update, l))))
  | NUpdateMeta signer k l =>
    do m <- ok_or (n_mints s k) EInvalidAccount ;;
    match nm_meta m with
    | Some (u, _) =>
      do _ <- require (is_key u signer) EUnauthorized ;;
      Ok (put_mint s k (mkNmint (nm_program m) (nm_auth m) (nm_pointer m) (Some (u, l))))
    | None => Err EInvalidAccount
    end
  | NUpdateMetaAuthority signer k new =>
    do m <- ok_or (n_mints s k) EInvalidAccount ;;
    match nm_meta m with
    | Some (u, l) =>
      do _ <- require (is_key u signer) EUnauthorized ;;
      do _ <- require (storable new) EInvalidInput ;;
      Ok (put_mint s k (mkNmint (nm_program m) (nm_auth m) (nm_pointer m) (Some (new, l))))
    | None => Err EInvalidAccount
    end
  | NSetPointerAuthority signer k new =>
    do m <- ok_or (n_mints s k) EInvalidAccount ;;
    match nm_pointer m with
    | Some (u, a) =>
      do _ <- require (is_key u signer) EUnauthorized ;;
      do _ <- require (storable new) EInvalidInput ;;
      Ok (put_mint s k (mkNmint (nm_program m) (nm_auth m) (Some (new, a)) (nm_meta m)))
    | None => Err EInvalidAccount
    end
  | NMovePointer signer k address =>
    do m <- ok_or (n_mints s k) EInvalidAccount ;;
    match nm_pointer m with
    | Some (u, _) =>
      do _ <- require (is_key u signer) EUnauthorized ;;
      Ok (put_mint s k (mkNmint (nm_program m) (nm_auth m) (Some (u, address)) (nm_meta m)))
    | None => Err EInvalidAccount
    end
  | NCreatePlex signer k update mutable l =>
    do m <- ok_or (n_mints s k) EInvalidAccount ;;
    do _ <- require (is_key (nm_auth m) signer) EUnauthorized ;;
    do _ <- require (match n_plex s k with None => true | Some _ => false end) EOther ;;
    do _ <- require (fits l) EInvalidInput ;;
    Ok (put_plex s k (mkMetaplex update mutable l))
  | NUpdatePlex signer k data new mutable =>
    do p <- ok_or (n_plex s k) EInvalidAccount ;;
    do _ <- require (mp_authority p =? signer) EUnauthorized ;;
    do l <- match data with
            | Some l => do _ <- require (mp_mutable p && fits l) EOther ;; Ok l
            | None => Ok (mp_label p)
            end ;;
    do f <- match mutable with
            | Some b => do _ <- require (mp_mutable p || negb b) EOther ;; Ok b
            | None => Ok (mp_mutable p)
            end ;;
    Ok (put_plex s k (mkMetaplex (match new with Some u => u | None => mp_authority p end) f l))
  end.

(** All instructions of a list, or none: the invocations within one instruction of this program. *)
Fixpoint nall (s : nstate) (l : list nop) : res nstate :=
  match l with
  | [] => Ok s
  | o :: r => do s' <- nexec s o ;; nall s' r
  end.

(** process_create_token_metadata.rs:22-67 and ix_initialize_virtual_pool_with_spl_token.rs:59-67, 201-217.
    [auth] is the pool authority, [opt] the config's token authority option. *)
Definition name_spl (auth bmint creator partner opt : Z) (l : label) : res (list nop) :=
  do up <- get_update_authority opt creator partner ;;
  do mi <- get_mint_authority opt creator partner ;;
  Ok [NInitMint bmint bmint (mkNmint SplToken (Some auth) None None);
      NCreatePlex auth bmint auth (negb (opt =? 1)) l;
      NUpdatePlex auth bmint None (Some (match up with Some u => u | None => SYSTEM end)) None;
      NSetMintAuthority auth bmint mi].

(** ix_initialize_virtual_pool_with_token2022.rs:40-52, 139-206, 222-241. *)
Definition name_2022 (auth bmint creator partner opt : Z) (l : label) : res (list nop) :=
  do up <- get_update_authority opt creator partner ;;
  do mi <- get_mint_authority opt creator partner ;;
  Ok [NInitMint bmint bmint (mkNmint Token2022 (Some auth) (Some (Some auth, bmint)) None);
      NInitMeta auth bmint creator l;
      NSetPointerAuthority auth bmint up;
      NUpdateMetaAuthority creator bmint up;
      NSetMintAuthority auth bmint mi].

(** What can happen: the opening of a pool by [creator] (who signs, as does the key of the new mint), or an
    instruction of anybody to one of the two programs. The pool authority is an address without a key, for
    which only this program signs, and only as above (and to mint and burn, see TokenModel). *)
Inductive nact :=
  | AOpen (ty bmint creator partner opt : Z) (l : label)
  | AOutside (o : nop).

Definition nact_exec (auth : Z) (s : nstate) (a : nact) : res nstate :=
  match a with
  | AOpen ty bmint creator partner opt l =>
    do _ <- require (negb (creator =? auth) && negb (creator =? SYSTEM)) EUnauthorized ;;
    do ops <- (if ty =? 0 then name_spl auth bmint creator partner opt l
               else if ty =? 1 then name_2022 auth bmint creator partner opt l else Err EInvalidTokenType) ;;
    nall s ops
  | AOutside o =>
    do _ <- require (negb (nsigner o =? auth) && negb (nsigner o =? SYSTEM)) EUnauthorized ;;
    nexec s o
  end.
Definition nact_step (auth : Z) (s : nstate) (a : nact) : nstate :=
  match nact_exec auth s a with Ok s' => s' | Err _ => s end.
Definition nrun (auth : Z) (s : nstate) (l : list nact) : nstate := fold_left (nact_step auth) l s.
