(** A session of the writer worked out from its calls: how each call should end, what it puts on the sink and what it changes,
    whether it works, is refused or is abandoned. Nothing of the writer's is used but the types of its arguments. *)
From Verif Require Import Base SpecFormat SpecCrc SpecArchive SpecWrite SpecSize SpecImage ZString ZDate Headers ExtraField Entry IO EntryReader Writer.

(** what is on the sink, the directory records so far, whether ZIP64 is forbidden and whether the archive is to be a ZIP64 one, the comment *)
Record session := { s_bytes : bytes; s_records : list bytes; s_no64 : bool; s_is64 : bool; s_comment : option bytes }.
Definition fresh : session := {| s_bytes := []; s_records := []; s_no64 := false; s_is64 := false; s_comment := None |}.
Definition with_bytes (s : session) (b : bytes) : session :=
  {| s_bytes := s_bytes s ++ b; s_records := s_records s; s_no64 := s_no64 s; s_is64 := s_is64 s; s_comment := s_comment s |}.
Definition with_64 (s : session) : session :=
  {| s_bytes := s_bytes s; s_records := s_records s; s_no64 := s_no64 s; s_is64 := true; s_comment := s_comment s |}.
Definition with_record (s : session) (b : bytes) : session :=
  {| s_bytes := s_bytes s; s_records := s_records s ++ [b]; s_no64 := s_no64 s; s_is64 := s_is64 s; s_comment := s_comment s |}.

(** ** The data a call puts down *)
(** what an encoder has emitted for [content] when it is dropped *)
Inductive so_far (cd : codec) (c : compression) : bytes -> bytes -> Prop :=
| far_stored content : c = Stored -> so_far cd c content content
| far_encoded level content out st : c <> Stored -> c <> Deflate64 -> enc_runs cd (enc_init cd c level) content out st -> so_far cd c content out.
Definition stores (cd : codec) (o : wop) (z : bytes) : Prop :=
  match o with
  | OpWhole e d => en_compression e = Deflate64 \/ compressed cd (en_compression e) d z
  | OpStream false e body true => en_compression e = Deflate64 \/ compressed cd (en_compression e) (fed_bytes body) z
  | OpStream false e body false => en_compression e = Deflate64 \/ so_far cd (en_compression e) (fed_bytes body) z
  | OpWholePre _ z' => z = z'
  | OpStream true _ body _ => z = fed_bytes body
  | _ => True
  end.
(** the entry a call is to leave *)
Definition item_for (s : session) (o : wop) (z : bytes) : item :=
  let it := item_of (s_no64 s) o in
  {| i_stream := i_stream it; i_no64 := i_no64 it; i_entry := i_entry it; i_usize := i_usize it; i_crc := i_crc it; i_data := z; i_off := len (s_bytes s) |}.

(** ** The calls *)
Definition too_long (b : bytes) : bool := 65535 <? len b.
Definition recorded_in (s : session) (it : item) : res unit * session :=
  let s := with_record s (record_bytes it) in
  if 65535 <? len (s_records s) then if s_no64 s then (Err (Zip64Needed TooManyFiles), s) else (Ok tt, with_64 s) else (Ok tt, s).
(** An entry written whole. What does not fit is refused before anything is written, but for a ZIP64 field only the directory needs.
    A refusal for length comes after the archive has been made a ZIP64 one. *)
Definition whole_ends (s : session) (it : item) : res unit * session :=
  let needs64 := i_big it || is_over (i_off it) in
  if needs64 && s_no64 s then (Err (Zip64Needed LargeFile), s)
  else
    let s := if needs64 then with_64 s else s in
    if too_long (spec_extras (local_fields it)) then (Err ExtraFieldTooLarge, s)
    else if too_long (i_name it) then (Err FileNameTooLarge, s)
    else if too_long (i_comment it) then (Err CommentTooLarge, s)
    else
      let s := with_bytes s (entry_bytes it) in
      if too_long (spec_extras (central_fields it)) then (Err ExtraFieldTooLarge, s) else recorded_in s it.
(** An entry written as a stream: [unsupported] if there is no encoder for it, [closed] if it is not dropped. *)
Definition local_bytes (it : item) : bytes := local_image it (version_of (i_entry it)) (plain_entry (i_entry it)) (local_fields it).
Definition stream_ends (s : session) (it : item) (unsupported closed : bool) : res unit * session :=
  let e := i_entry it in
  if s_no64 s && (is_over (en_compressed_size e) || is_over (en_uncompressed_size e)) then (Err (Zip64Needed LargeFile), s)
  else
    let s := if s_no64 s then s else with_64 s in
    if too_long (spec_extras (local_fields it)) then (Err ExtraFieldTooLarge, s)
    else if too_long (i_name it) then (Err FileNameTooLarge, s)
    else if unsupported then (Panic PUnsupported, with_bytes s (local_bytes it))
    else
      let s := with_bytes s (local_bytes it ++ i_data it) in
      if negb closed then (Ok tt, s)
      else if s_no64 s && (i_big it || is_over (i_off it)) then (Err (Zip64Needed LargeFile), s)
      else if too_long (spec_extras (central_fields it)) then (Err ExtraFieldTooLarge, s)
      else
        let s := with_bytes s (descriptor_image it) in
        if too_long (i_comment it) then (Err CommentTooLarge, s) else recorded_in s it.
Definition no_encoder (e : zentry) : bool := match en_compression e with Deflate64 => true | _ => false end.
Definition call_ends (data : wop -> bytes) (s : session) (o : wop) : res unit * session :=
  let it := item_for s o (data o) in
  match o with
  | OpForceNoZip64 => (Ok tt, {| s_bytes := s_bytes s; s_records := s_records s; s_no64 := true; s_is64 := s_is64 s; s_comment := s_comment s |})
  | OpForceZip64 => (Ok tt, with_64 s)
  | OpComment c => (Ok tt, {| s_bytes := s_bytes s; s_records := s_records s; s_no64 := s_no64 s; s_is64 := s_is64 s; s_comment := Some c |})
  | OpWhole e _ => if no_encoder e then (Panic PUnsupported, s) else whole_ends s it
  | OpWholePre _ _ => whole_ends s it
  | OpStream pre e _ closed => stream_ends s it (negb pre && no_encoder e) closed
  end.
Fixpoint calls_end (data : wop -> bytes) (s : session) (l : list wop) : list (wop * res unit) * session :=
  match l with
  | [] => ([], s)
  | o :: l => let '(r, s) := call_ends data s o in let '(rs, s) := calls_end data s l in ((o, r) :: rs, s)
  end.
(** [close]: the records, and unless the directory starts too far on with ZIP64 forbidden, the end of the archive *)
Definition close_ends (s : session) : res unit * bytes :=
  let records := concat (s_records s) in
  let far := is_over (len (s_bytes s)) in
  if far && s_no64 s then (Err (Zip64Needed LargeFile), s_bytes s ++ records)
  else (Ok tt, s_bytes s ++ records ++ archive_end (s_is64 s || far) (len (s_records s)) (len records) (len (s_bytes s)) (comment_bytes (s_comment s))).
Definition session_ends (data : wop -> bytes) (l : list wop) : list (wop * res unit) * res unit * bytes :=
  let '(xs, s) := calls_end data fresh l in let '(r, b) := close_ends s in (xs, r, b).

(** data that goes in as it is, or that no call takes *)
Definition told_by (o : wop) : bytes :=
  match o with OpWhole _ d | OpWholePre _ d => d | OpStream _ _ body _ => fed_bytes body | _ => [] end.
Definition uncoded (o : wop) : Prop :=
  match o with OpWhole e _ | OpStream false e _ _ => en_compression e = Stored \/ en_compression e = Deflate64 | _ => True end.
(** not an error of the sink *)
Definition says_no_upstream (r : res unit) : Prop := forall io, r <> Err (UpstreamReadError io).
