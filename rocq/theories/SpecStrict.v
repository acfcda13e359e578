(** A strict check of an archive (as [unzip -t] and repair tools make it), written down from APPNOTE alone as a program on
    the bytes: it shares no function with the readers of the crate. *)
From Verif Require Import Base SpecFormat SpecCrc SpecWrite ZString Headers Entry EntryReader IO Writer.

(** ** Reading off the front *)
Definition value (l : bytes) : N := fold_right (fun b n => b2n b + 256 * n) 0 l.
Definition text (n : N) (l : bytes) : option (bytes * bytes) :=
  if n <=? len l then Some (firstn (N.to_nat n) l, skipn (N.to_nat n) l) else None.
(** numbers of the given widths *)
Fixpoint nums (ks : list nat) (l : bytes) : option (list N * bytes) :=
  match ks with
  | [] => Some ([], l)
  | k :: ks =>
    match text (N.of_nat k) l with
    | Some (b, l) => match nums ks l with Some (vs, l) => Some (value b :: vs, l) | None => None end
    | None => None
    end
  end.
(** extra fields (APPNOTE 4.5.1), up to the last byte *)
Fixpoint fields (fuel : nat) (l : bytes) : option (list (N * bytes)) :=
  match l, fuel with
  | [], _ => Some []
  | _, O => None
  | _, S fuel =>
    match nums [2; 2]%nat l with
    | Some ([id; n], l) =>
      match text n l with
      | Some (p, l) => match fields fuel l with Some r => Some ((id, p) :: r) | None => None end
      | None => None
      end
    | _ => None
    end
  end.
Definition all_fields (l : bytes) : option (list (N * bytes)) := fields (length l) l.
(** the payload of the ZIP64 field, if there is one *)
Fixpoint zip64_of (l : list (N * bytes)) : option bytes :=
  match l with [] => None | (id, p) :: l => if id =? 1 then Some p else zip64_of l end.

(** ** Records of the directory (APPNOTE 4.3.12) *)
Record listing := {
  r_needed : N; r_flags : N; r_method : N; r_time : N; r_date : N; r_crc : N; r_csize : N; r_usize : N; r_disk : N; r_offset : N;
  r_name : bytes; r_extra : list (N * bytes); r_comment : bytes; r_iattr : N; r_eattr : N }.
Definition read_listing (l : bytes) : option (listing * bytes) :=
  match nums [4; 2; 2; 2; 2; 2; 2; 4; 4; 4; 2; 2; 2; 2; 2; 4; 4]%nat l with
  | Some ([sig; _; needed; flags; method; time; date; crc; cs; us; nl; xl; cl; disk; iattr; eattr; off], l) =>
    if negb (sig =? 0x02014b50) then None else
    match text nl l with
    | Some (name, l) =>
      match text xl l with
      | Some (x, l) =>
        match text cl l, all_fields x with
        | Some (comment, l), Some xs =>
          Some ({| r_needed := needed; r_flags := flags; r_method := method; r_time := time; r_date := date; r_crc := crc;
                   r_csize := cs; r_usize := us; r_disk := disk; r_offset := off; r_name := name; r_extra := xs;
                   r_comment := comment; r_iattr := iattr; r_eattr := eattr |}, l)
        | _, _ => None
        end
      | None => None
      end
    | None => None
    end
  | _ => None
  end.
Fixpoint listings (fuel : nat) (l : bytes) : option (list listing) :=
  match l, fuel with
  | [], _ => Some []
  | _, O => None
  | _, S fuel =>
    match read_listing l with
    | Some (r, l) => match listings fuel l with Some rs => Some (r :: rs) | None => None end
    | None => None
    end
  end.
(** sizes and offset, from the ZIP64 field where the record holds the placeholder (APPNOTE 4.5.3) *)
Definition widen (v : N) (p : bytes) : option (N * bytes) :=
  if v =? 0xFFFFFFFF then match nums [8%nat] p with Some ([w], p) => Some (w, p) | _ => None end else Some (v, p).
Definition measures (r : listing) : option (N * N * N) :=
  match zip64_of (r_extra r) with
  | None => Some (r_usize r, r_csize r, r_offset r)
  | Some p =>
    match widen (r_usize r) p with
    | Some (u, p) =>
      match widen (r_csize r) p with
      | Some (c, p) => match widen (r_offset r) p with Some (o, _) => Some (u, c, o) | None => None end
      | None => None
      end
    | None => None
    end
  end.

(** ** The version an entry needs (APPNOTE 4.4.3.2) *)
Definition dir_name (l : bytes) : bool := match rev l with b :: _ => b2n b =? 47 | [] => false end.
Definition least_version (method : N) (dir zip64 : bool) : N :=
  N.max (if dir then 20 else 10) (N.max (if zip64 then 45 else 10)
    (if method =? 8 then 20 else if method =? 9 then 21 else if method =? 12 then 46 else if method =? 14 then 63 else 10)).

(** ** Contents *)
(** APPNOTE 4.4.5 *)
Definition method_of (v : N) : option compression :=
  if v =? 0 then Some Stored else if v =? 8 then Some Deflate else if v =? 9 then Some Deflate64 else if v =? 12 then Some Bz
  else if v =? 14 then Some Lzma else if v =? 93 then Some Zstd else if v =? 95 then Some Xz else None.
(** what the data unpacks to; all of it must be used *)
Definition unpack (cd : codec) (c : compression) (z : bytes) : option bytes :=
  match c with
  | Stored => Some z
  | _ => match dec cd c z with (x, Some n) => if n =? len z then Some x else None | _ => None end
  end.

Fixpoint same_bytes (a b : bytes) : bool :=
  match a, b with
  | [], [] => true
  | x :: a, y :: b => (b2n x =? b2n y) && same_bytes a b
  | _, _ => false
  end.

(** the sizes that a local header gives (APPNOTE 4.5.3) *)
Definition local_sizes (us cs : N) (xs : list (N * bytes)) : option (N * N) :=
  match zip64_of xs with
  | None => Some (us, cs)
  | Some p =>
    match widen us p with
    | Some (u, p) => match widen cs p with Some (c, _) => Some (u, c) | None => None end
    | None => None
    end
  end.
(** ** An entry (APPNOTE 4.3.7-4.3.9): [l] begins with its local header; what follows the entry is left *)
Definition check_entry (cd : codec) (r : listing) (usize csize : N) (l : bytes) : option bytes :=
  match nums [4; 2; 2; 2; 2; 2; 4; 4; 4; 2; 2]%nat l with
  | Some ([sig; needed; flags; method; time; date; crc; cs; us; nl; xl], l) =>
    match text nl l with
    | Some (name, l) =>
      match text xl l with
      | Some (x, l) =>
        match all_fields x, text csize l, method_of method with
        | Some xs, Some (z, l), Some c =>
          let described := N.testbit flags 3 in
          let local64 := match zip64_of xs with Some _ => true | None => false end in
          let central64 := match zip64_of (r_extra r) with Some _ => true | None => false end in
          (* the two headers agree *)
          let agree := (sig =? 0x04034b50) && (needed =? r_needed r) && (flags =? r_flags r) && (method =? r_method r) &&
            (time =? r_time r) && (date =? r_date r) && same_bytes name (r_name r) &&
            (described || ((crc =? r_crc r) && match local_sizes us cs xs with Some (u, c) => (u =? usize) && (c =? csize) | None => false end)) in
          (* the version covers what is used *)
          let enough := least_version method (dir_name name) (local64 || central64) <=? needed in
          (* the data unpacks to content of the size and CRC told *)
          let sound := match unpack cd c z with Some content => (len content =? usize) && (crc32_spec content =? r_crc r) | None => false end in
          if agree && enough && sound then
            if described then
              match nums [4; 4; if local64 then 8 else 4; if local64 then 8 else 4]%nat l with
              | Some ([dsig; dcrc; dcs; dus], l) =>
                if (dsig =? 0x08074b50) && (dcrc =? r_crc r) && (dcs =? csize) && (dus =? usize) then Some l else None
              | _ => None
              end
            else Some l
          else None
        | _, _, _ => None
        end
      | None => None
      end
    | None => None
    end
  | _ => None
  end.
(** the entries lie one behind the other, in the order of the directory, from [pos] to the end of [l] *)
Fixpoint check_entries (cd : codec) (rs : list listing) (pos : N) (l : bytes) : bool :=
  match rs with
  | [] => len l =? 0
  | r :: rs =>
    match measures r with
    | Some (us, cs, off) =>
      (off =? pos) && (r_disk r =? 0) &&
      match check_entry cd r us cs l with Some l' => check_entries cd rs (pos + (len l - len l')) l' | None => false end
    | None => false
    end
  end.

(** ** The end (APPNOTE 4.3.14-4.3.16) *)
(** an end record whose comment reaches to the end of [l] *)
Definition read_end (l : bytes) : option (list N) :=
  match nums [4; 2; 2; 2; 2; 4; 4; 2]%nat l with
  | Some (sig :: vs, l) => match rev vs with cl :: _ => if (sig =? 0x06054b50) && (cl =? len l) then Some vs else None | [] => None end
  | _ => None
  end.
(** the last of them, and what lies before it *)
Fixpoint last_end (d : bytes) : option (bytes * list N) :=
  match d with
  | [] => None
  | b :: r =>
    match last_end r with
    | Some (front, vs) => Some (b :: front, vs)
    | None => match read_end d with Some vs => Some ([], vs) | None => None end
    end
  end.
(** a ZIP64 end record and its locator at the end of [l]: what lies before, count, size and offset of the directory *)
Definition read_end64 (l : bytes) : option (bytes * (N * N * N)) :=
  match text (len l - 76) l with
  | Some (front, l) =>
    match nums [4; 8; 2; 2; 4; 4; 8; 8; 8; 8; 4; 4; 8; 4]%nat l with
    | Some ([sig; size; _; _; d1; d2; n1; n2; cds; cdo; lsig; ld; lo; disks], []) =>
      if (sig =? 0x06064b50) && (size =? 44) && (d1 =? 0) && (d2 =? 0) && (n1 =? n2) && (lsig =? 0x07064b50) && (ld =? 0) &&
         (lo =? len front) && (disks =? 1)
      then Some (front, (n1, cds, cdo)) else None
    | _ => None
    end
  | None => None
  end.
(** the values of the classic record, or those of the ZIP64 one where there is one; what does not fit is saturated *)
Definition fits_in (bound v w : N) : bool := (v =? w) || ((v =? bound) && (bound <=? w)).
Definition directory_at (d : bytes) : option (bytes * (N * N * N)) :=
  match last_end d with
  | Some (front, [d1; d2; n1; n2; size; off; _]) =>
    if negb ((d1 =? 0) && (d2 =? 0) && (n1 =? n2)) then None else
    match read_end64 front with
    | Some (front, (n, cds, cdo)) =>
      if fits_in 0xFFFF n1 n && fits_in 0xFFFFFFFF size cds && fits_in 0xFFFFFFFF off cdo then Some (front, (n, cds, cdo)) else None
    | None => Some (front, (n1, size, off))
    end
  | _ => None
  end.

(** * The check *)
Definition strict (cd : codec) (d : bytes) : bool :=
  match directory_at d with
  | Some (front, (n, size, off)) =>
    (off + size =? len front) &&
    match text off front with
    | Some (body, dir) =>
      match listings (length dir) dir with
      | Some rs => (len rs =? n) && check_entries cd rs 0 body
      | None => false
      end
    | None => false
    end
  | None => false
  end.

(** ** For which calls the check is claimed *)
(** what tells of a directory is in the text, not only in the alternative; or else the method needs version 2.0 anyway *)
Definition tidy_name (e : zentry) : Prop :=
  dir_name (stored_bytes (en_filename e)) = true -> names_directory (en_filename e) \/ 20 <= method_version (en_compression e).
Definition tidy (x : bool * wop) : Prop := match op_entry (snd x) with Some e => tidy_name e | None => True end.
(** the entry's own sizes and CRC are true of its data *)
Definition told_truly (cd : codec) (e : zentry) (z : bytes) : Prop :=
  exists content, unpack cd (en_compression e) z = Some content /\ len content = en_uncompressed_size e /\ crc32_spec content = en_crc32 e.
Definition soundly (cd : codec) (x : bool * wop) : Prop :=
  match snd x with
  | OpWhole _ data => len data <= 0xFFFFFFFF
  | OpWholePre e z => told_truly cd e z /\ en_uncompressed_size e <= 0xFFFFFFFF
  | OpStream pre e body closed =>
    closed = true /\ fst x = true /\ (forall it, leaves cd (fst x) (snd x) it -> straight it) /\ (pre = true -> told_truly cd e (fed_bytes body))
  | _ => True
  end.
Definition checkable (cd : codec) (x : bool * wop) : Prop := tidy x /\ soundly cd x.
