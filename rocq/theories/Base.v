(** Bytes, little-endian integers, list slicing with [N] indices, and the result type.
    Everything in the model is built on these. *)
From Coq Require Export List NArith ZArith Bool Lia.
From Coq Require Export Init.Byte Strings.Byte.
From Coq Require Import ZifyBool ZifyNat ZifyN.
Export ListNotations.
Open Scope N_scope.
Open Scope list_scope.

Ltac Zify.zify_post_hook ::= Z.div_mod_to_equations.

(** A Rust [Vec<u8>] / [&[u8]]. [byte] is the standard library's 256-constructor type. *)
Notation bytes := (list byte).

(** Value of a byte. *)
Definition b2n (b : byte) : N := Byte.to_N b.

(** [n as u8]. *)
Definition n2b (n : N) : byte :=
  match Byte.of_N (n mod 256) with Some b => b | None => x00 end.

(** [uK::to_le_bytes], for a K-byte integer; wider values are truncated as [as uK] would. *)
Fixpoint to_le (k : nat) (n : N) : bytes :=
  match k with
  | O => []
  | S k' => n2b n :: to_le k' (n / 256)
  end.

(** [uK::from_le_bytes]. *)
Fixpoint from_le (l : bytes) : N :=
  match l with
  | [] => 0
  | b :: r => b2n b + 256 * from_le r
  end.

(** [slice.len()]. *)
Definition len {A} (l : list A) : N := N.of_nat (length l).

(** [&l[..n]], total: the whole list when it is shorter. *)
Fixpoint take {A} (n : N) (l : list A) : list A :=
  match l with
  | [] => []
  | x :: r => if n =? 0 then [] else x :: take (N.pred n) r
  end.

(** [&l[n..]], total: empty when [l] is shorter. *)
Fixpoint drop {A} (n : N) (l : list A) : list A :=
  match l with
  | [] => []
  | x :: r => if n =? 0 then l else drop (N.pred n) r
  end.

(** [&l[a..b]], total version. *)
Definition slice {A} (a b : N) (l : list A) : list A := take (b - a) (drop a l).

(** Constant-range slices of fixed-size arrays, [value[a..b]] in spec/parse.rs. *)
Definition sub (a b : nat) (l : bytes) : bytes := firstn (b - a) (skipn a l).

Definition bytes_eqb (a b : bytes) : bool :=
  if list_eq_dec Byte.byte_eq_dec a b then true else false.

(** Integer casts. *)
Definition as_u16 (n : N) : N := n mod 65536.
Definition as_u32 (n : N) : N := n mod 4294967296.
Definition as_u64 (n : N) : N := n mod 18446744073709551616.

(** Why a modelled computation panics. [PFuel] is not a Rust panic: it marks a modelled loop
    running out of its iteration budget and is proved unreachable. *)
Inductive panic :=
| POverflow      (* arithmetic overflow with overflow checks enabled *)
| PSlice         (* slice index out of range *)
| PUnwrap        (* unwrap on Err/None *)
| PCapacity      (* Vec::with_capacity capacity overflow *)
| PUnsupported   (* explicit panic! *)
| PFuel.

(** std::io::Error kinds that occur. [IoOther] stands for any error of the underlying I/O. *)
Inductive io_error :=
| UnexpectedEof
| WriteZero
| InvalidInput
| InvalidData
| IoOther (code : N).

(** error.rs 14-17 *)
Inductive zip64_case := TooManyFiles | LargeFile.

(** error.rs 30-72. The string payload of FeatureNotSupported is reduced to a tag. *)
Inductive feature := FSplit | FEncryption | FStreamStored.
Inductive zip_error :=
| FeatureNotSupported (f : feature)
| CompressionNotSupported (n : N)
| AttributeCompatibilityNotSupported (n : N)
| TargetZip64NotSupported
| Zip64Needed (c : zip64_case)
| EOFNotReached
| ExtraFieldTooLarge
| CommentTooLarge
| FileNameTooLarge
| StringNotUtf8
| UnableToLocateEOCDR
| InvalidExtraFieldHeader (size remain : N)
| Zip64ExtendedFieldIncomplete
| UpstreamReadError (e : io_error)
| CRC32CheckError
| EntryIndexOutOfBounds
| UnexpectedHeaderError (actual expected : N)
| InfoZipUnicodeCommentFieldIncomplete
| InfoZipUnicodePathFieldIncomplete.

(** Outcome of a fallible function. *)
Inductive res (A : Type) :=
| Ok (a : A)
| Err (e : zip_error)
| Panic (p : panic).
Arguments Ok {A} a. Arguments Err {A} e. Arguments Panic {A} p.

Definition rbind {A B} (m : res A) (f : A -> res B) : res B :=
  match m with Ok a => f a | Err e => Err e | Panic p => Panic p end.

Notation "'let?' x ':=' m 'in' k" := (rbind m (fun x => k))
  (at level 200, x pattern, m at level 100, k at level 200, right associativity).

Definition is_ok {A} (r : res A) : bool := match r with Ok _ => true | _ => false end.
Definition is_panic {A} (r : res A) : bool := match r with Panic _ => true | _ => false end.

(** Build configuration: are arithmetic overflow checks on (debug) or off (release), and
    [std::mem::size_of::<StoredZipEntry>()], which only matters for the capacity check of
    [Vec::with_capacity]. usize is 64 bits wide. *)
Record config := { overflow_checks : bool; entry_mem_size : N }.

Definition usize_max : N := 18446744073709551615.
Definition u64_max : N := 18446744073709551615.

(** [a - b] on usize. *)
Definition usub (c : config) (a b : N) : res N :=
  if b <=? a then Ok (a - b)
  else if overflow_checks c then Panic POverflow
  else Ok (as_u64 (a + (usize_max + 1) - b)).

(** [a + b] on u64. *)
Definition uadd (c : config) (a b : N) : res N :=
  if a + b <=? u64_max then Ok (a + b)
  else if overflow_checks c then Panic POverflow
  else Ok (as_u64 (a + b)).

(** [slice[a..b]] with Rust's bounds check. *)
Definition index {A} (a b : N) (l : list A) : res (list A) :=
  if (a <=? b) && (b <=? len l) then Ok (slice a b l) else Panic PSlice.
