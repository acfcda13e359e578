(** Copying entries from archive to archive. *)
From Verif Require Import Base IO Writer SpecFormat SpecCrc SpecUtf8 SpecArchive SpecRead SpecWrite ZString ZDate Headers ExtraField Entry Reader EntryReader.

(** entries with their data, written one after the other to a fresh archive *)
Definition copy_ops (es : list (zentry * bytes)) : list wop := map (fun x => OpWhole (fst x) (snd x)) es.
(** what the reader gives of the archive [d] *)
Definition taken (cd : codec) (cfg : config) (d : bytes) (es : list (zentry * bytes)) : Prop :=
  exists f, mem_new cfg d = Ok {| m_data := d; m_file := f |} /\ map st_entry (f_entries f) = map fst es /\
    (forall i x, nth_error es (N.to_nat i) = Some x -> mem_read_entry cd {| m_data := d; m_file := f |} i = Ok (snd x)).
(** the archive can be told for what it is, and is a classic one by size *)
Definition manageable (cfg : config) (zip64 : bool) (n : N) (d : bytes) : Prop :=
  len d <= 0xFFFFFFFF /\ end_clear zip64 [] d /\ n * entry_mem_size cfg <= 0x7FFFFFFFFFFFFFFF.
(** one generation *)
Definition copied (cd : codec) (cfg : config) (es es' : list (zentry * bytes)) : Prop :=
  exists sched, let '(xs, r, w) := run_archive cd sched (copy_ops es) in
  r = Ok tt /\ Forall (fun x => worked (snd x) = true) xs /\ manageable cfg (w_zip64 w) (len es) (w_bytes w) /\ taken cd cfg (w_bytes w) es'.
Inductive copies (cd : codec) (cfg : config) : nat -> list (zentry * bytes) -> list (zentry * bytes) -> Prop :=
| copies_none es : copies cd cfg 0 es es
| copies_more n es es1 es2 : copied cd cfg es es1 -> copies cd cfg n es1 es2 -> copies cd cfg (S n) es es2.

(** fields other than the Unicode ones, with something in them *)
Definition own_field (x : extra_field) : bool :=
  match x with XPath _ | XComment _ => false | _ => match spec_payload x with [] => false | _ => true end end.
(** [y] is a copy of [x] *)
Definition copy_of (x y : zentry * bytes) : Prop :=
  snd y = snd x /\ same_text (en_filename (fst x)) (en_filename (fst y)) /\ same_text (en_comment (fst x)) (en_comment (fst y)) /\
  en_compression (fst y) = en_compression (fst x) /\ en_date (fst y) = en_date (fst x) /\
  en_iattr (fst y) = en_iattr (fst x) /\ en_eattr (fst y) = en_eattr (fst x) /\
  filter own_field (en_extra (fst y)) = filter own_field (en_extra (fst x)).

(** the string is what its own bytes and the extra fields read as, or can be put down in the extra fields *)
Definition text_settled (mk : unicode_field -> extra_field) (s : zstring) (xs : list extra_field) : Prop :=
  text_clear mk s xs \/ reads_as mk false xs (stored_bytes s) s.
(** entries that can be copied *)
Definition copyable (x : zentry * bytes) : Prop :=
  let e := fst x in
  entry_fine e /\ len (snd x) <= 0xFFFFFFFF /\ sound_string (en_filename e) /\ sound_string (en_comment e) /\
  (plain_text (en_filename e) /\ plain_text (en_comment e) \/
   text_settled XPath (en_filename e) (en_extra e) /\ text_settled XComment (en_comment e) (en_extra e)).
