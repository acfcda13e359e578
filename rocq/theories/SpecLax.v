(** The strict check again, with two things that can be overlooked: [ver], that an entry with a ZIP64 field should need version 4.5
    (APPNOTE 4.4.3.2), and [dsc], that its data descriptor should have sizes of 64 bits (APPNOTE 4.3.9.2) - instead it has
    two placeholders. *)
From Verif Require Import Base SpecFormat SpecCrc SpecWrite SpecStrict ZString Headers Entry EntryReader IO Writer.

Definition lax_entry (ver dsc : bool) (cd : codec) (r : listing) (usize csize : N) (l : bytes) : option bytes :=
  match nums [4; 2; 2; 2; 2; 2; 4; 4; 4; 2; 2]%nat l with
  | Some ([sig; needed; flags; method; time; date; crc; cs; us; nl; xl], l) =>
    match text nl l with
    | Some (name, l) =>
      match text xl l with
      | Some (x, l) =>
        match all_fields x, text csize l, method_of method with
        | Some xs, Some (z, l), Some c =>
          let described := N.testbit flags 3 in
          let local64 := match zip64_of xs with Some _ => true | None => false end in
          let central64 := match zip64_of (r_extra r) with Some _ => true | None => false end in
          let agree := (sig =? 0x04034b50) && (needed =? r_needed r) && (flags =? r_flags r) && (method =? r_method r) &&
            (time =? r_time r) && (date =? r_date r) && same_bytes name (r_name r) &&
            (described || ((crc =? r_crc r) && match local_sizes us cs xs with Some (u, c) => (u =? usize) && (c =? csize) | None => false end)) in
          let enough := least_version method (dir_name name) (negb ver && (local64 || central64)) <=? needed in
          let sound := match unpack cd c z with Some content => (len content =? usize) && (crc32_spec content =? r_crc r) | None => false end in
          if agree && enough && sound then
            if described then
              if dsc && local64 then
                match nums [4; 4; 4; 4]%nat l with
                | Some ([dsig; dcrc; dcs; dus], l) =>
                  if (dsig =? 0x08074b50) && (dcrc =? r_crc r) && (dcs =? 0xFFFFFFFF) && (dus =? 0xFFFFFFFF) then Some l else None
                | _ => None
                end
              else
                match nums [4; 4; if local64 then 8 else 4; if local64 then 8 else 4]%nat l with
                | Some ([dsig; dcrc; dcs; dus], l) =>
                  if (dsig =? 0x08074b50) && (dcrc =? r_crc r) && (dcs =? csize) && (dus =? usize) then Some l else None
                | _ => None
                end
            else Some l
          else None
        | _, _, _ => None
        end
      | None => None
      end
    | None => None
    end
  | _ => None
  end.
Fixpoint lax_entries (ver dsc : bool) (cd : codec) (rs : list listing) (pos : N) (l : bytes) : bool :=
  match rs with
  | [] => len l =? 0
  | r :: rs =>
    match measures r with
    | Some (us, cs, off) =>
      (off =? pos) && (r_disk r =? 0) &&
      match lax_entry ver dsc cd r us cs l with Some l' => lax_entries ver dsc cd rs (pos + (len l - len l')) l' | None => false end
    | None => false
    end
  end.
Definition lax (ver dsc : bool) (cd : codec) (d : bytes) : bool :=
  match directory_at d with
  | Some (front, (n, size, off)) =>
    (off + size =? len front) &&
    match text off front with
    | Some (body, dir) =>
      match listings (length dir) dir with
      | Some rs => (len rs =? n) && lax_entries ver dsc cd rs 0 body
      | None => false
      end
    | None => false
    end
  | None => false
  end.

(** ** What a call must be like for the check to pass *)
(** a ZIP64 field is put down for it, in an archive of less than 4 GiB *)
Definition wide (x : bool * wop) : Prop :=
  match snd x with
  | OpWhole _ data => 0xFFFFFFFF < len data
  | OpWholePre e _ => 0xFFFFFFFF < en_uncompressed_size e
  | OpStream _ _ _ _ => fst x = false
  | _ => False
  end.
Definition wide_stream (x : bool * wop) : Prop := match snd x with OpStream _ _ _ _ => fst x = false | _ => False end.
(** what the caller told of data that was compressed beforehand is true *)
Definition told_right (cd : codec) (x : bool * wop) : Prop :=
  match snd x with
  | OpWholePre e z => told_truly cd e z
  | OpStream true e body _ => told_truly cd e (fed_bytes body)
  | _ => True
  end.
Definition needs45 (x : bool * wop) : Prop := match op_entry (snd x) with Some e => 45 <= method_version (en_compression e) | None => True end.
Definition passes (ver dsc : bool) (cd : codec) (x : bool * wop) : Prop :=
  tidy x /\ told_right cd x /\ (ver = false -> wide x -> needs45 x) /\ (dsc = false -> ~ wide_stream x).
(** no exchanged sizes (see C21) *)
Definition unexchanged (cd : codec) (x : bool * wop) : Prop := forall it, leaves cd (fst x) (snd x) it -> straight it.
(** no size that is the placeholder itself *)
Definition no_placeholder (cd : codec) (x : bool * wop) : Prop :=
  forall it, leaves cd (fst x) (snd x) it -> i_stream it = false -> i_usize it <> 0xFFFFFFFF /\ i_csize it <> 0xFFFFFFFF.
