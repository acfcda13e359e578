(** string.rs: ZipString. *)
From Verif Require Import Base Utf8.

(** string.rs 8-11 *)
Inductive encoding := EUtf8 | ERaw.

(** string.rs 15-19 *)
Record zstring := { zs_enc : encoding; zs_raw : bytes; zs_alt : option bytes }.

(** string.rs 27-35 [ZipString::new] *)
Definition zs_new (raw : bytes) (e : encoding) : zstring :=
  match e with
  | EUtf8 => if utf8_valid raw then {| zs_enc := EUtf8; zs_raw := raw; zs_alt := None |}
             else {| zs_enc := ERaw; zs_raw := raw; zs_alt := None |}
  | ERaw => {| zs_enc := ERaw; zs_raw := raw; zs_alt := None |}
  end.

(** string.rs 38-40 [ZipString::new_with_alternative]; the first argument is a Rust [String],
    i.e. valid UTF-8 is a precondition of every caller. *)
Definition zs_new_with_alternative (utf8 alt : bytes) : zstring :=
  {| zs_enc := EUtf8; zs_raw := utf8; zs_alt := Some alt |}.

(** string.rs 102-112 [From<String>], [From<&str>]; argument is valid UTF-8 by type. *)
Definition zs_from_string (utf8 : bytes) : zstring :=
  {| zs_enc := EUtf8; zs_raw := utf8; zs_alt := None |}.

(** string.rs 43-55 [as_bytes], [encoding], [alternative] are the projections. *)

(** string.rs 61-76 [as_str]: the bytes are reinterpreted unchecked. *)
Definition zs_as_str (s : zstring) : res bytes :=
  match zs_enc s with EUtf8 => Ok (zs_raw s) | ERaw => Err StringNotUtf8 end.

(** string.rs 82-89 [into_string] *)
Definition zs_into_string (s : zstring) : res bytes :=
  match zs_enc s with EUtf8 => Ok (zs_raw s) | ERaw => Err StringNotUtf8 end.

(** string.rs 92-94 [into_alternative] *)
Definition zs_into_alternative (s : zstring) : option bytes := zs_alt s.

(** string.rs 97-99 [is_utf8_without_alternative] *)
Definition zs_utf8_no_alt (s : zstring) : bool :=
  match zs_enc s, zs_alt s with EUtf8, None => true | _, _ => false end.
