(** The archive of a session, byte for byte: worked out from the entries alone (APPNOTE 4.3), with nothing of the writer's. *)
From Verif Require Import Base SpecFormat SpecCrc SpecArchive SpecWrite SpecSize ZString ZDate Headers ExtraField Entry IO Writer.

(** ** Extra fields *)
Definition path_of (x : extra_field) : option unicode_field := match x with XPath u => Some u | _ => None end.
Definition note_of (x : extra_field) : option unicode_field := match x with XComment u => Some u | _ => None end.
(** the Info-ZIP Unicode field [text] for the classic bytes [basic]: over the first one there is, else at the end *)
Fixpoint put_field (mk : unicode_field -> extra_field) (sel : extra_field -> option unicode_field) (basic text : bytes) (xs : list extra_field) : list extra_field :=
  match xs with
  | [] => [mk (UV1 (crc32_spec basic) text)]
  | x :: xs =>
    match sel x with
    | Some (UV1 _ _) => mk (UV1 (crc32_spec basic) text) :: xs
    | Some (UUnknown _ _) => x :: xs
    | None => x :: put_field mk sel basic text xs
    end
  end.
Definition put_text (mk : unicode_field -> extra_field) (sel : extra_field -> option unicode_field) (s : zstring) (xs : list extra_field) : list extra_field :=
  match zs_enc s, zs_raw s with EUtf8, _ :: _ => put_field mk sel (stored_bytes s) (zs_raw s) xs | _, _ => xs end.
Definition plain_entry (e : zentry) : bool := is_plain (en_filename e) && is_plain (en_comment e).
Definition local_fields (it : item) : list extra_field :=
  let e := i_entry it in let xs := en_extra e ++ local_zip64 it in
  if plain_entry e then xs else put_text XComment note_of (en_comment e) (put_text XPath path_of (en_filename e) xs).
(** In the directory the ZIP64 field has the values put down there; without one in the local header it comes last. *)
Definition central_zip64 (it : item) : extra_field :=
  zip64_extra (when (in64 it) (put_usize it)) (when (in64 it) (put_csize it)) (when (off64 it) (i_off it)).
Definition central_fields (it : item) : list extra_field :=
  map (fun x => match x with XZip64 _ => central_zip64 it | _ => x end) (local_fields it) ++
  (if negb (in64 it) && off64 it then [central_zip64 it] else []).

(** ** Records *)
Definition directory_name (s : zstring) : bool :=
  match zs_enc s, rev (zs_raw s) with EUtf8, x2f :: _ => true | _, _ => false end.
Definition version_of (e : zentry) : N :=
  if directory_name (en_filename e) then N.max (method_version (en_compression e)) 20 else method_version (en_compression e).
Definition entry_bytes (it : item) : bytes :=
  local_image it (version_of (i_entry it)) (plain_entry (i_entry it)) (local_fields it) ++ i_data it ++ descriptor_image it.
Definition record_bytes (it : item) : bytes :=
  let e := i_entry it in
  central_header 0x033F (version_of e) (flag_word false (i_stream it) (plain_entry e)) (compression_to (en_compression e))
    (zd_time (en_date e)) (zd_date (en_date e)) (i_crc it)
    (if in64 it then 0xFFFFFFFF else put_csize it) (if in64 it then 0xFFFFFFFF else put_usize it)
    (len (i_name it)) (len (spec_extras (central_fields it))) (len (i_comment it)) 0 (en_iattr e) (en_eattr e)
    (if off64 it then 0xFFFFFFFF else i_off it)
  ++ i_name it ++ spec_extras (central_fields it) ++ i_comment it.

(** ** The archive *)
(** the entries one behind the other, from [off] on *)
Definition moved_to (it : item) (off : N) : item :=
  {| i_stream := i_stream it; i_no64 := i_no64 it; i_entry := i_entry it; i_usize := i_usize it; i_crc := i_crc it; i_data := i_data it; i_off := off |}.
Fixpoint arranged (off : N) (its : list item) : list item :=
  match its with
  | [] => []
  | it :: its => let it := moved_to it off in it :: arranged (off + len (entry_bytes it)) its
  end.
Definition archive_image (forced : bool) (its : list item) (comment : bytes) : bytes :=
  let its := arranged 0 its in
  let body := concat (map entry_bytes its) in
  let records := concat (map record_bytes its) in
  let zip64 := forced || existsb (fun it => in64 it || off64 it) its || (65535 <? len its) || is_over (len body) in
  body ++ records ++ archive_end zip64 (len its) (len records) (len body) comment.

(** ** Sessions whose data goes in as it is *)
Definition asks_zip64 (o : wop) : bool := match o with OpForceZip64 => true | _ => false end.
Definition no_item : item := {| i_stream := false; i_no64 := false; i_entry := entry_new {| zs_enc := EUtf8; zs_raw := []; zs_alt := None |} Stored; i_usize := 0; i_crc := 0; i_data := []; i_off := 0 |}.
Definition item_of (no64 : bool) (o : wop) : item :=
  match o with
  | OpWhole e d => {| i_stream := false; i_no64 := no64; i_entry := e; i_usize := len d; i_crc := crc32_spec d; i_data := d; i_off := 0 |}
  | OpWholePre e z => {| i_stream := false; i_no64 := no64; i_entry := e; i_usize := en_uncompressed_size e; i_crc := en_crc32 e; i_data := z; i_off := 0 |}
  | OpStream false e body _ => {| i_stream := true; i_no64 := no64; i_entry := e; i_usize := len (fed_bytes body); i_crc := crc32_spec (fed_bytes body); i_data := fed_bytes body; i_off := 0 |}
  | OpStream true e body _ => {| i_stream := true; i_no64 := no64; i_entry := e; i_usize := en_uncompressed_size e; i_crc := en_crc32 e; i_data := fed_bytes body; i_off := 0 |}
  | _ => no_item
  end.
(** the calls that write an entry, with whether ZIP64 was forbidden before them *)
Fixpoint entry_calls (no64 : bool) (l : list wop) : list (bool * wop) :=
  match l with [] => [] | o :: l => (if writes_entry o then [(no64, o)] else []) ++ entry_calls (no_after no64 o) l end.
Definition as_it_is (o : wop) : Prop :=
  match o with OpWhole e _ => en_compression e = Stored | OpStream false e _ _ => en_compression e = Stored | _ => True end.
Definition session_image (l : list wop) : bytes :=
  archive_image (existsb asks_zip64 l) (map (fun x => item_of (fst x) (snd x)) (entry_calls false l)) (last_comment l).
