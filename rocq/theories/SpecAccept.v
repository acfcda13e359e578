(** What the strict check sees in an archive, and what a reader should then report of it. *)
From Verif Require Import Base SpecFormat SpecCrc SpecUtf8 SpecArchive SpecWrite SpecStrict ZString ZDate Headers Entry EntryReader.

(** ** What is seen of an entry: its record in the directory, sizes and offset, and what its data unpacks to *)
Record sight := { v_listing : listing; v_usize : N; v_csize : N; v_offset : N; v_content : bytes }.
(** [l] begins with the local header *)
Definition content_at (cd : codec) (method csize : N) (l : bytes) : option bytes :=
  match nums [26; 2; 2]%nat l with
  | Some ([_; nl; xl], l) =>
    match text (nl + xl) l with
    | Some (_, l) =>
      match text csize l, method_of method with
      | Some (z, _), Some c => unpack cd c z
      | _, _ => None
      end
    | None => None
    end
  | _ => None
  end.
Definition see (cd : codec) (d : bytes) (r : listing) : option sight :=
  match measures r with
  | Some (us, cs, off) =>
    match text off d with
    | Some (_, l) =>
      match content_at cd (r_method r) cs l with
      | Some c => Some {| v_listing := r; v_usize := us; v_csize := cs; v_offset := off; v_content := c |}
      | None => None
      end
    | None => None
    end
  | None => None
  end.
Fixpoint see_all (cd : codec) (d : bytes) (rs : list listing) : option (list sight) :=
  match rs with
  | [] => Some []
  | r :: rs => match see cd d r, see_all cd d rs with Some v, Some vs => Some (v :: vs) | _, _ => None end
  end.
Definition directory (d : bytes) : option (list listing) :=
  match directory_at d with
  | Some (front, (n, size, off)) => match text off front with Some (_, dir) => listings (length dir) dir | None => None end
  | None => None
  end.
Definition sights (cd : codec) (d : bytes) : option (list sight) :=
  match directory d with Some rs => see_all cd d rs | None => None end.

(** ** What should be reported of it *)
Definition shown (v : sight) (e : stored_entry) : Prop :=
  let r := v_listing v in let z := st_entry e in
  stored_bytes (en_filename z) = r_name r /\
  (N.testbit (r_flags r) 11 = true -> is_utf8 (r_name r) -> en_filename z = {| zs_enc := EUtf8; zs_raw := r_name r; zs_alt := None |}) /\
  method_of (r_method r) = Some (en_compression z) /\ en_crc32 z = r_crc r /\ crc32_spec (v_content v) = r_crc r /\
  en_uncompressed_size z = v_usize v /\ len (v_content v) = v_usize v /\ en_compressed_size z = v_csize v /\
  en_date z = {| zd_date := r_date r; zd_time := r_time r |} /\ en_data_descriptor z = N.testbit (r_flags r) 3 /\ st_file_offset e = v_offset v /\
  stored_bytes (en_comment z) = r_comment r /\ en_iattr z = r_iattr r /\ en_eattr z = r_eattr r.

(** ** For which archives that is claimed *)
(** an Info-ZIP Unicode field of a known version has its CRC *)
Definition plain_extra (f : N * bytes) : bool :=
  if (fst f =? 0x6375) || (fst f =? 0x7075) then
    match snd f with [] => false | v :: p => negb (b2n v =? 1) || (4 <=? len p) end
  else true.
Definition plain_listing (r : listing) : bool := forallb plain_extra (r_extra r).
(** the end record is where its signature appears for the last time; something that looks like a ZIP64 locator before it is one *)
Definition plain_end (d : bytes) : Prop :=
  forall front vs, last_end d = Some (front, vs) ->
    (forall q, found_at (le 4 0x06054b50) d q -> q <= len front) /\
    (read_end64 front = None -> forall q, found_at (le 4 0x07064b50) d q -> q + 20 <> len front).
Definition plain_archive (d : bytes) : Prop :=
  plain_end d /\ forall rs, directory d = Some rs -> Forall (fun r => plain_listing r = true) rs.

(** ** Front to back *)
(** the extra fields of a local header, with which [l] begins *)
Definition local_fields (l : bytes) : option (list (N * bytes)) :=
  match nums [26; 2; 2]%nat l with
  | Some ([_; nl; xl], l) =>
    match text nl l with
    | Some (_, l) => match text xl l with Some (x, _) => all_fields x | None => None end
    | None => None
    end
  | _ => None
  end.
(** The entry is not encrypted, and its local header has no incomplete Unicode field; if there is a descriptor then the data is
    compressed, so that its end can be found, and the descriptor is a short one. *)
Definition passable (r : listing) (l : bytes) : bool :=
  match local_fields l with
  | Some xs =>
    forallb plain_extra xs && negb (N.testbit (r_flags r) 0) &&
    (negb (N.testbit (r_flags r) 3) || (negb (r_method r =? 0) && match zip64_of xs with None => true | Some _ => false end))
  | None => false
  end.
Definition walkable (d : bytes) (r : listing) : bool :=
  match measures r with
  | Some (_, _, off) => match text off d with Some (_, l) => passable r l | None => false end
  | None => false
  end.
(** what should be reported of an entry; sizes and CRC may come behind it *)
Definition met (v : sight) (z : zentry) : Prop :=
  let r := v_listing v in
  stored_bytes (en_filename z) = r_name r /\
  (N.testbit (r_flags r) 11 = true -> is_utf8 (r_name r) -> en_filename z = {| zs_enc := EUtf8; zs_raw := r_name r; zs_alt := None |}) /\
  method_of (r_method r) = Some (en_compression z) /\ en_date z = {| zd_date := r_date r; zd_time := r_time r |} /\
  en_data_descriptor z = N.testbit (r_flags r) 3 /\
  (N.testbit (r_flags r) 3 = false -> en_crc32 z = r_crc r /\ en_uncompressed_size z = v_usize v /\ en_compressed_size z = v_csize v).
(** what follows compressed data does not matter to the decoder *)
Definition self_ending (cd : codec) : Prop :=
  forall c z x rest, c <> Stored -> dec cd c z = (x, Some (len z)) -> dec cd c (z ++ rest) = (x, Some (len z)).
