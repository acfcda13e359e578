(** Histories whose archives cannot be mistaken, by conditions on what the caller hands over. *)
From Verif Require Import Base SpecFormat SpecArchive SpecWrite ZString ExtraField Entry IO Reader Writer.

(** no byte of [l] is [b] *)
Definition free_of (b : byte) (l : bytes) : Prop := ~ In b l.
(** Without ZIP64 the reader looks for a locator, 50 4b 06 07, twenty bytes before the end record: in the last
    directory record. Here nothing of the entry can give it those bytes. *)
Definition ordinary_entry (e : zentry) : Prop :=
  plain_text (en_filename e) /\ plain_text (en_comment e) /\
  free_of x07 (zs_raw (en_filename e)) /\ free_of x07 (zs_raw (en_comment e)) /\ free_of x07 (spec_extras (en_extra e)) /\
  free_of x07 (le 2 (en_iattr e)) /\ free_of x07 (le 4 (en_eattr e)) /\
  ~ In (n2b (en_eattr e / 0x1000000)) [x50; x4b; x06].
Definition ordinary_op (o : wop) : Prop := match op_entry o with Some e => ordinary_entry e | None => True end.
(** fewer than 0x4b50 calls and a comment without the last byte of the end record's signature *)
Definition ordinary (l : list wop) : Prop :=
  len l < 0x4b50 /\ len (last_comment l) <= 65535 /\ free_of x06 (last_comment l).

(** ** Calls that should work on a sink without faults *)
(** name, comment and extra fields fit, with room for the fields the writer may add *)
Definition roomy (e : zentry) : Prop :=
  len (spec_extras (en_extra e)) + len (zs_raw (en_filename e)) + len (zs_raw (en_comment e)) + 60 <= 65535 /\
  len (stored_bytes (en_filename e)) <= 65535 /\ len (stored_bytes (en_comment e)) <= 65535.
Definition handy (o : wop) : Prop :=
  o <> OpForceNoZip64 /\ op_good o /\ ~ asks_deflate64 o /\ match op_entry o with Some e => roomy e | None => True end.
(** strings as callers can make them *)
Definition proper (o : wop) : Prop :=
  match op_entry o with Some e => sound_string (en_filename e) /\ sound_string (en_comment e) | None => True end.
(** what the entry [st] of an archive says, against the entry [e] given to the writer *)
Definition comes_back (e : zentry) (st : stored_entry) : Prop :=
  let z := st_entry st in
  zs_raw (en_filename z) = zs_raw (en_filename e) /\ zs_raw (en_comment z) = zs_raw (en_comment e) /\
  zs_enc (en_filename z) = EUtf8 /\ zs_enc (en_comment z) = EUtf8 /\
  en_compression z = en_compression e /\ en_date z = en_date e /\ en_iattr z = en_iattr e /\ en_eattr z = en_eattr e.
