(** What two entries have in common that cannot be told apart in an archive. *)
From Verif Require Import Base SpecFormat SpecArchive ZString ZDate Headers ExtraField Entry IO Reader EntryReader Writer SpecWrite.

Definition indistinct (a b : item) : Prop :=
  let e := i_entry a in
  let f := i_entry b in
  i_name a = i_name b /\ i_comment a = i_comment b /\
  en_compression e = en_compression f /\ en_date e = en_date f /\ en_iattr e = en_iattr f /\ en_eattr e = en_eattr f /\
  i_stream a = i_stream b /\ i_crc a = i_crc b /\ i_off a = i_off b /\
  (straight a -> straight b -> i_usize a = i_usize b /\ i_data a = i_data b) /\
  (texts_clear e -> texts_clear f ->
     zs_raw (en_filename e) = zs_raw (en_filename f) /\ zs_raw (en_comment e) = zs_raw (en_comment f)).
