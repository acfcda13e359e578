(** How a call that writes an entry as a stream should end on a healthy sink. *)
From Verif Require Import Base ZString ExtraField Entry IO Writer SpecFormat SpecArchive SpecRead SpecWrite.

(** [it] is what would be put down, [lx] its local extra fields, [head] its local header. The refusals
    before the local header leave the sink alone. The later ones do not: they come when the stream is
    closed, after the header and the data (entry_stream.rs 201-250), the refusal of the comment even after
    the data descriptor (entry_stream.rs 252-256). *)
Definition stream_outcome (w : world) (it : item) (lx : list extra_field) (head : bytes) (r : res unit) (w' : world) : Prop :=
  let e := i_entry it in
  let untouched := w_sink w' = w_sink w /\ w_cds w' = w_cds w in
  let halfway more := w_bytes w' = w_bytes w ++ head ++ i_data it ++ more /\ w_cds w' = w_cds w in
  if i_no64 it && (is_over (en_compressed_size e) || is_over (en_uncompressed_size e)) then r = Err (Zip64Needed LargeFile) /\ untouched
  else if 65535 <? len (spec_extras lx) then r = Err ExtraFieldTooLarge /\ untouched
  else if 65535 <? len (i_name it) then r = Err FileNameTooLarge /\ untouched
  else if i_no64 it && (i_big it || is_over (i_off it)) then r = Err (Zip64Needed LargeFile) /\ halfway []
  else if negb (i_no64 it) && (65527 <? len (spec_extras lx)) then r = Err ExtraFieldTooLarge /\ halfway []
  else if 65535 <? len (i_comment it) then r = Err CommentTooLarge /\ halfway (descriptor_image it)
  else w_bytes w' = w_bytes w ++ head ++ i_data it ++ descriptor_image it /\ len (w_cds w') = len (w_cds w) + 1 /\
       r = if i_no64 it && (65535 <? len (w_cds w) + 1) then Err (Zip64Needed TooManyFiles) else Ok tt.

(** the same on any sink, as far as the opening goes: nothing else is refused, and nothing is written first *)
Definition opening_outcome (w : world) (it : item) (lx : list extra_field) (ended : option zip_error) (w' : world) : Prop :=
  let e := i_entry it in
  let untouched := w_sink w' = w_sink w /\ w_cds w' = w_cds w in
  if i_no64 it && (is_over (en_compressed_size e) || is_over (en_uncompressed_size e)) then ended = Some (Zip64Needed LargeFile) /\ untouched
  else if 65535 <? len (spec_extras lx) then ended = Some ExtraFieldTooLarge /\ untouched
  else if 65535 <? len (i_name it) then ended = Some FileNameTooLarge /\ untouched
  else ended = None \/ exists io, ended = Some (UpstreamReadError io).
