(** How long the archive of a session is when [data] says what each call's data becomes. *)
From Verif Require Import Base SpecFormat SpecArchive SpecWrite SpecOrdinary SpecSize SpecSession ZString Headers ExtraField Entry IO Writer.

Definition op_size_with (data : wop -> bytes) (o : wop) : N :=
  match o with
  | OpWhole e _ | OpWholePre e _ => local_size e false + len (data o) + central_size e false
  | OpStream _ e _ true => local_size e true + len (data o) + 16 + central_size e true
  | OpStream _ e _ false => local_size e true + len (data o)
  | _ => 0
  end.
Definition ops_size_with (data : wop -> bytes) (l : list wop) : N := fold_right (fun o n => op_size_with data o + n) 0 l.
Definition session_size_with (data : wop -> bytes) (l : list wop) : N :=
  ops_size_with data l + (if existsb uses_zip64 l then 56 + 20 else 0) + 22 + len (last_comment l).
(** content of entries written whole within 32 bits, and no Unicode field of the caller's *)
Definition moderate (o : wop) : Prop :=
  match o with OpWhole _ d => len d <= 0xFFFFFFFF | OpWholePre e _ => en_uncompressed_size e <= 0xFFFFFFFF | _ => True end /\
  match op_entry o with Some e => unsaid e | None => True end.
