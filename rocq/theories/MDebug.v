(** Model of the textual and memory side of key objects: [Debug] (src/key.rs:28, 72-86
    and the derived instances of the wrappers), and [Drop]/[Zeroize] (src/key.rs:112-153,
    src/traits/keys.rs:70-82).

    [Debug] output is modelled as the tree of [debug_struct] calls; the text is some
    function of the tree (the formatter of the standard library, not modelled).
    Derived instances print every field.  A [BoxedUint] prints its limbs, so a leaf
    carries the whole value and precision. *)
From Coq Require Import ZArith List Bool String.
From Coq Require Import Init.Byte.
From Verif Require Import Base Bigint MHash MPkcs1 MRsa MGenerate MKey MApi MWrap.
Import ListNotations.
Local Open Scope string_scope.
Local Open Scope list_scope.

(** What the [Debug] implementations of src/key.rs, src/oaep.rs, src/pkcs1v15.rs, src/pss.rs and
    of the key objects emit. *)
Inductive dbg :=
| DbgUint (u : uint)                       (* BoxedUint, NonZero<BoxedUint> *)
| DbgParams (p : mparams)                  (* BoxedMontyParams *)
| DbgStr (s : string)                      (* &str *)
| DbgBytes (l : list byte)                 (* Vec<u8>, Box<[u8]> *)
| DbgNum (n : nat)                         (* usize *)
| DbgBool (b : bool)
| DbgNone
| DbgSome (d : dbg)
| DbgPhantom                               (* PhantomData: the type name only *)
| DbgStruct (name : string) (fields : list (string * dbg)).

(** [derive(Debug)] for [RsaPublicKey]: src/key.rs:28-39 *)
Definition debug_pub (k : pubkey) : dbg :=
  DbgStruct "RsaPublicKey"
    [("n", DbgUint (pk_n k)); ("e", DbgUint (pk_e k)); ("n_params", DbgParams (pk_params k))].

(** src/key.rs:72-86 *)
Definition debug_priv (k : privkey) : dbg :=
  let precomputed := match sk_pre k with Some _ => "Some(...)" | None => "None" end in
  DbgStruct "RsaPrivateKey"
    [("pubkey_components", debug_pub (sk_pub k)); ("d", DbgStr "...");
     ("primes", DbgStr "&[...]"); ("precomputed", DbgStr precomputed)].

(** [Option<Box<[u8]>>], the field of src/oaep/decrypting_key.rs:26 and of encrypting_key.rs. *)
Definition debug_label (l : option (list byte)) : dbg :=
  match l with None => DbgNone | Some b => DbgSome (DbgBytes b) end.

(** Derived instances: src/pkcs1v15/signing_key.rs:28-36, verifying_key.rs:26-34,
    decrypting_key.rs:16-20, encrypting_key.rs:11-15 *)
Definition debug_p1sk (k : p1_signing_key) : dbg :=
  DbgStruct "SigningKey"
    [("inner", debug_priv (p1sk_inner k)); ("prefix", DbgBytes (p1sk_prefix k)); ("phantom", DbgPhantom)].
Definition debug_p1vk (k : p1_verifying_key) : dbg :=
  DbgStruct "VerifyingKey"
    [("inner", debug_pub (p1vk_inner k)); ("prefix", DbgBytes (p1vk_prefix k)); ("phantom", DbgPhantom)].
Definition debug_p1dk (k : p1_decrypting_key) : dbg :=
  DbgStruct "DecryptingKey" [("inner", debug_priv (p1dk_inner k))].
Definition debug_p1ek (k : p1_encrypting_key) : dbg :=
  DbgStruct "EncryptingKey" [("inner", debug_pub (p1ek_inner k))].
(** src/pss/signing_key.rs:35-43, blinded_signing_key.rs:25-33, verifying_key.rs:21-29 *)
Definition debug_pssk (k : pss_signing_key) : dbg :=
  DbgStruct (if pssk_blinded k then "BlindedSigningKey" else "SigningKey")
    [("inner", debug_priv (pssk_inner k)); ("salt_len", DbgNum (pssk_salt_len k)); ("phantom", DbgPhantom)].
Definition debug_psvk (k : pss_verifying_key) : dbg :=
  DbgStruct "VerifyingKey"
    [("inner", debug_pub (psvk_inner k)); ("salt_len", DbgNum (psvk_salt_len k)); ("phantom", DbgPhantom)].
(** src/oaep/decrypting_key.rs:18-29, encrypting_key.rs:13-24 *)
Definition debug_odk (k : oaep_decrypting_key) : dbg :=
  DbgStruct "DecryptingKey"
    [("inner", debug_priv (odk_inner k)); ("label", debug_label (odk_label k));
     ("phantom", DbgPhantom); ("mg_phantom", DbgPhantom)].
Definition debug_oek (k : oaep_encrypting_key) : dbg :=
  DbgStruct "EncryptingKey"
    [("inner", debug_pub (oek_inner k)); ("label", debug_label (oek_label k));
     ("phantom", DbgPhantom); ("mg_phantom", DbgPhantom)].
(** src/oaep.rs:171-179, src/pss.rs:117-125 *)
Definition debug_oaep (o : oaep_params) : dbg :=
  DbgStruct "OAEP" [("digest", DbgStr "..."); ("mgf_digest", DbgStr "..."); ("label", debug_label (oa_label o))].
Definition debug_pss (p : pss_params) : dbg :=
  DbgStruct "PSS" [("blinded", DbgBool (ps_blinded p)); ("digest", DbgStr "..."); ("salt_len", DbgNum (ps_salt_len p))].

(** * Memory *)

(** The separately allocated pieces a private key owns, src/key.rs:60-135 (every [BoxedUint] is a boxed
    slice of limbs; [BoxedMontyParams] owns its modulus, [BoxedMontyForm] its residue
    and parameters). *)
Inductive piece :=
| PieceN | PieceE | PieceNParams
| PieceD | PiecePrime (i : nat)
| PieceDp | PieceDq | PieceQinv | PieceQinvParams | PiecePParams | PieceQParams.
(** Contents (src/key.rs:112-120 erases some): the limbs, as a value and a size. *)
Definition memory := list (piece * uint).

Fixpoint primes_pieces (i : nat) (l : list uint) : memory :=
  match l with [] => [] | p :: l => (PiecePrime i, p) :: primes_pieces (S i) l end.

(** src/key.rs:29-39, 61-70, 123-135 *)
Definition pre_memory (p : precomp) : memory :=
  [(PieceDp, pc_dp p); (PieceDq, pc_dq p);
   (PieceQinv, mkU (mf_res (pc_qinv p)) (mp_prec (mf_params (pc_qinv p))));
   (PieceQinvParams, mp_modulus (mf_params (pc_qinv p)));
   (PiecePParams, mp_modulus (pc_p_params p)); (PieceQParams, mp_modulus (pc_q_params p))].
Definition key_memory (k : privkey) : memory :=
  [(PieceN, pk_n (sk_pub k)); (PieceE, pk_e (sk_pub k)); (PieceNParams, mp_modulus (pk_params (sk_pub k)));
   (PieceD, sk_d k)] ++ primes_pieces 0 (sk_primes k) ++
  match sk_pre k with None => [] | Some p => pre_memory p end.

(** [BoxedUint::zeroize] (dependency): every limb becomes zero *)
Definition uzeroize (u : uint) : uint := mkU 0 (uprec u).

(** [Zeroize for PrecomputedValues]: src/key.rs:139-147, run by [Drop] (149-153) *)
Definition pre_zeroize (m : piece * uint) : piece * uint :=
  match fst m with
  | PieceDp | PieceDq => (fst m, uzeroize (snd m))
  | _ => m
  end.
(** [Drop for RsaPrivateKey]: src/key.rs:112-118; what the pieces hold when they are
    freed.  [precomputed.zeroize()] runs [pre_zeroize] on the CRT values. *)
Definition drop_zeroize (m : piece * uint) : piece * uint :=
  match fst m with
  | PieceD | PiecePrime _ => (fst m, uzeroize (snd m))
  | _ => pre_zeroize m
  end.
Definition dropped_memory (k : privkey) : memory := map drop_zeroize (key_memory k).
(** What [clear_precomputed] (src/key.rs:455-457) frees: the dropped CRT values *)
Definition cleared_memory (k : privkey) : memory :=
  match sk_pre k with None => [] | Some p => map pre_zeroize (pre_memory p) end.
