(** Where the entries of an archive lie, and an archive whose entries all lie in the same place. *)
From Verif Require Import Base SpecFormat SpecCrc SpecArchive Entry Headers Reader.

(** the end of an entry's data, as the reader takes it *)
Definition reach (d : bytes) (e : stored_entry) : N := data_start d (st_file_offset e) + en_compressed_size (st_entry e).
(** the entries lie one behind the other between [lo] and [hi], header to end of data, sharing no byte *)
Fixpoint one_behind_other (d : bytes) (lo : N) (es : list stored_entry) (hi : N) : Prop :=
  match es with
  | [] => lo <= hi
  | e :: es => lo <= st_file_offset e /\ one_behind_other d (reach d e) es hi
  end.
(** how many bytes of data the entries claim together *)
Fixpoint claimed (es : list stored_entry) : N :=
  match es with [] => 0 | e :: es => en_compressed_size (st_entry e) + claimed es end.

(** one stored file "a", and [n] directory records for it *)
Definition bomb_member (data : bytes) : member :=
  {| a_made_by := 0x031E; a_needed := 10; a_flags := 0; a_method := Stored; a_time := 0; a_date := 33;
     a_crc := crc32_spec data; a_usize := len data; a_csize := len data; a_offset := 0; a_disk := 0;
     a_u64 := false; a_c64 := false; a_o64 := false; a_d64 := false; a_iattr := 0; a_eattr := 0;
     a_name := [x61]; a_comment := []; a_before := []; a_after := [] |}.
Definition bomb_lead (data : bytes) : bytes :=
  local_header 10 0 0 0 33 (crc32_spec data) (len data) (len data) 1 0 ++ [x61] ++ data.
Definition bomb (n : nat) (data : bytes) : bytes :=
  bomb_lead data ++ members (repeat (bomb_member data) n) ++
  end_record 0 0 (N.of_nat n) (N.of_nat n) (47 * N.of_nat n) (len (bomb_lead data)) 0.
