(** How long the archive of a session is, worked out from the calls alone. *)
From Verif Require Import Base SpecFormat SpecArchive SpecWrite ZString Headers ExtraField Entry IO Writer SpecOrdinary.

(** the Info-ZIP Unicode field a string gets when bit 11 cannot be used (APPNOTE 4.6.8, 4.6.9) *)
Definition field_for (s : zstring) : N :=
  match zs_enc s with EUtf8 => if len (zs_raw s) =? 0 then 0 else 9 + len (zs_raw s) | ERaw => 0 end.
Definition is_plain (s : zstring) : bool :=
  match zs_enc s, zs_alt s with EUtf8, None => true | _, _ => false end.
Definition text_fields (e : zentry) : N :=
  if is_plain (en_filename e) && is_plain (en_comment e) then 0 else field_for (en_filename e) + field_for (en_comment e).
Definition extras_size (e : zentry) : N := len (spec_extras (en_extra e)) + text_fields e.
(** the caller brings no Unicode field of their own *)
Definition unsaid (e : zentry) : Prop := none_of XPath (en_extra e) /\ none_of XComment (en_extra e).

(** A streamed entry has a ZIP64 field: two sizes in the local header, two sizes and the offset in the directory. *)
Definition local_size (e : zentry) (streamed : bool) : N :=
  30 + len (stored_bytes (en_filename e)) + extras_size e + if streamed then 20 else 0.
Definition central_size (e : zentry) (streamed : bool) : N :=
  46 + len (stored_bytes (en_filename e)) + extras_size e + len (stored_bytes (en_comment e)) + if streamed then 28 else 0.
Definition op_size (o : wop) : N :=
  match o with
  | OpWhole e d | OpWholePre e d => local_size e false + len d + central_size e false
  | OpStream _ e body true => local_size e true + len (fed_bytes body) + 16 + central_size e true
  | OpStream _ e body false => local_size e true + len (fed_bytes body)
  | _ => 0
  end.
Definition uses_zip64 (o : wop) : bool := match o with OpForceZip64 | OpStream _ _ _ _ => true | _ => false end.
Definition ops_size (l : list wop) : N := fold_right (fun o n => op_size o + n) 0 l.
Definition session_size (l : list wop) : N :=
  ops_size l + (if existsb uses_zip64 l then 56 + 20 else 0) + 22 + len (last_comment l).

(** The data goes into the archive as it is handed over. *)
Definition raw_op (o : wop) : Prop :=
  match o with
  | OpWhole e _ => en_compression e = Stored
  | OpWholePre e _ => en_uncompressed_size e <= 0xFFFFFFFF
  | OpStream pre e _ _ => pre = true \/ en_compression e = Stored
  | _ => True
  end.
Definition measured_op (o : wop) : Prop := raw_op o /\ match op_entry o with Some e => unsaid e | None => True end.
