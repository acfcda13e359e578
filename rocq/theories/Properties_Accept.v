(** Property theorems: archives of any origin that pass the strict check are read. *)
From Verif Require Import Base BaseFacts Inflate Fixtures SpecFormat SpecCrc SpecUtf8 SpecArchive SpecRead SpecWrite SpecStream SpecFront SpecStrict SpecAccept
  ZString ZDate Headers ExtraField Entry IO Reader EntryReader StreamReader IOFacts Samples InflateEnds AcceptProofs AcceptFront.

(** a computable sufficient condition, for the cases below *)
Definition plain_check (cfg : config) (d : bytes) : bool :=
  match last_end d with
  | Some (front, _) => none_after (le 4 0x06054b50) d (len front) && match read_end64 front with Some _ => true | None => none_after (le 4 0x07064b50) d 0 && (20 <? len front) || (len front <? 20) end
  | None => true
  end &&
  match SpecAccept.directory d with Some rs => forallb plain_listing rs && (len rs * entry_mem_size cfg <=? isize_max) | None => true end.
Lemma plain_checked cfg d : plain_check cfg d = true -> plain_archive d /\ forall rs, SpecAccept.directory d = Some rs -> len rs * entry_mem_size cfg <= isize_max.
Proof.
  unfold plain_check. intro E. apply andb_true_iff in E as [E1 E2]. split; [split|].
  - intros front vs LE. rewrite LE in E1. apply andb_true_iff in E1 as [E1 E3]. split; [now apply none_after_ok|].
    intros R q F. rewrite R in E3. apply orb_true_iff in E3 as [E3|E3]; [|lia]. apply andb_true_iff in E3 as [E3 E4].
    pose proof (none_after_ok (le 4 0x07064b50) d 0 eq_refl E3 q F). lia.
  - intros rs D. rewrite D in E2. apply andb_true_iff in E2 as [E2 _]. now apply Forall_forall, forallb_forall.
  - intros rs D. rewrite D in E2. apply andb_true_iff in E2 as [_ E2]. now apply N.leb_le.
Qed.

(** * C63. What a strict check accepts, the reader opens; it reports what the check saw, and delivers the contents the check
    unpacked. *)
Theorem C63_accepted_partial cfg cd s : strict cd (s_data s) = true -> plain_archive (s_data s) -> nofail (s_sched s) -> len (s_data s) <= u64_max ->
  (forall rs, SpecAccept.directory (s_data s) = Some rs -> len rs * entry_mem_size cfg <= isize_max) ->
  exists vs f, sights cd (s_data s) = Some vs /\ fst (file cfg s) = Ok f /\ Forall2 shown vs (f_entries f) /\
    forall i v, nth_error vs (N.to_nat i) = Some v -> read_entry cd f i s = Ok (v_content v).
Proof. exact (accepted cfg cd s). Qed.
Print Assumptions C63_accepted_partial.
Theorem C63_accepted_mem_partial cfg cd d : strict cd d = true -> plain_archive d -> len d <= u64_max ->
  (forall rs, SpecAccept.directory d = Some rs -> len rs * entry_mem_size cfg <= isize_max) ->
  exists vs m, sights cd d = Some vs /\ mem_new cfg d = Ok m /\ Forall2 shown vs (f_entries (m_file m)) /\
    forall i v, nth_error vs (N.to_nat i) = Some v -> mem_read_entry cd m i = Ok (v_content v).
Proof. exact (accepted_mem cfg cd d). Qed.
Print Assumptions C63_accepted_mem_partial.

(** An archive of another program: the second entry has a descriptor, its sizes and offset are in a ZIP64 field, a Unicode
    name is given for the first, which also has a ZIP64 field it does not need, and the end is a ZIP64 one. *)
Definition first : member :=
  {| a_made_by := 0x031E; a_needed := 45; a_flags := 0x0002; a_method := Stored; a_time := 0; a_date := 33;
     a_crc := crc32_spec data1; a_usize := 3; a_csize := 3; a_offset := 0; a_disk := 0;
     a_u64 := false; a_c64 := false; a_o64 := false; a_d64 := false; a_iattr := 0; a_eattr := 0x81A40000;
     a_name := [x82]; a_comment := [x6b]; a_before := []; a_after := [XPath (UV1 (crc32_spec [x82]) [xc3; xa9]); XUnknown 1 8 (le 8 77); XUnknown 0xCAFE 2 [x01; x02]] |}.
Definition second : member :=
  {| a_made_by := 0x031E; a_needed := 45; a_flags := 0x0008; a_method := Deflate; a_time := 7; a_date := 33;
     a_crc := crc32_spec [x78; x79]; a_usize := 2; a_csize := 5; a_offset := 34; a_disk := 0;
     a_u64 := true; a_c64 := true; a_o64 := true; a_d64 := false; a_iattr := 0; a_eattr := 0;
     a_name := [x62; x2f; x63]; a_comment := []; a_before := []; a_after := [XUnknown 0x1234 0 []] |}.
Definition front_part : bytes :=
  local_header 45 0x0002 0 0 33 (crc32_spec data1) 3 3 1 0 ++ [x82] ++ data1 ++
  local_header 45 0x0008 8 7 33 0 0 0 3 0 ++ [x62; x2f; x63] ++ data2 ++ data_descriptor32 (crc32_spec [x78; x79]) 5 2.
Definition foreign (comment : bytes) : bytes :=
  front_part ++ members [first; second] ++ zip64_end 44 798 46 0 0 2 2 (len (members [first; second])) (len front_part) ++
  zip64_end_locator 0 (len (front_part ++ members [first; second])) 1 ++
  end_record 0 0 2 2 (len (members [first; second])) (len front_part) (len comment) ++ comment.
Definition third : member :=
  {| a_made_by := 0x031E; a_needed := 10; a_flags := 0; a_method := Stored; a_time := 0; a_date := 33;
     a_crc := crc32_spec data1; a_usize := 3; a_csize := 3; a_offset := 0; a_disk := 0;
     a_u64 := false; a_c64 := false; a_o64 := false; a_d64 := false; a_iattr := 0; a_eattr := 0;
     a_name := [x61]; a_comment := []; a_before := []; a_after := [XUnknown 0x7075 0 []; XUnknown 0xCAFE 2 [x01; x02]] |}.
Definition hollow : bytes :=
  local_header 10 0 0 0 33 (crc32_spec data1) 3 3 1 0 ++ [x61] ++ data1 ++ members [third] ++
  end_record 0 0 1 1 (len (members [third])) 34 0.
Example C63_case : strict toy (foreign comment0) = true /\ plain_archive (foreign comment0) /\
  (forall rs, SpecAccept.directory (foreign comment0) = Some rs -> len rs * entry_mem_size cfg0 <= isize_max) /\ len (foreign comment0) <= u64_max /\
  option_map (map v_content) (sights toy (foreign comment0)) = Some [data1; [x78; x79]].
Proof.
  assert (P : plain_check cfg0 (foreign comment0) = true) by (vm_compute; reflexivity). apply plain_checked in P as [P1 P2].
  split; [vm_compute; reflexivity|]. split; [exact P1|]. split; [exact P2|]. split; [vm_compute; discriminate|vm_compute; reflexivity].
Qed.
(** Archives that other programs wrote (test inputs of the crate) *)
Example C63_case_fixtures : forallb (fun d => strict flate d && plain_check cfg0 d) [zip_empty; zip64_zip; utf8_extra_zip] = true /\
  option_map (map v_content) (sights flate zip64_zip) = Some [[x48; x65; x6c; x6c; x6f; x20; x57; x6f; x72; x6c; x64; x21; x0a]].
Proof. split; vm_compute; reflexivity. Qed.
(** Not every archive that passes: an end signature in the comment is taken for the end record, and a Unicode field without
    content makes the whole archive unreadable. *)
Theorem C63_refuted : exists d d', strict toy d = true /\ strict toy d' = true /\
  (exists vs, sights toy d = Some vs /\ map v_content vs = [data1; [x78; x79]]) /\ (exists vs, sights toy d' = Some vs /\ map v_content vs = [data1]) /\
  fst (file cfg0 (cursor d)) = Err (UpstreamReadError UnexpectedEof) /\ fst (file cfg0 (cursor d')) = Err InfoZipUnicodePathFieldIncomplete.
Proof.
  exists (foreign (le 4 0x06054b50)), hollow. repeat split; try (vm_compute; reflexivity); eexists; split; vm_compute; reflexivity.
Qed.
Print Assumptions C63_refuted.

(** * C64. ... and a reader that sees it front to back finds the same entries with the same contents. *)
Theorem C64_front_partial cfg cd s : strict cd (s_data s) = true -> self_ending cd -> len (s_data s) <= u64_max ->
  (forall rs, SpecAccept.directory (s_data s) = Some rs -> rs <> [] /\ Forall (fun r => walkable (s_data s) r = true) rs) ->
  s_pos s = 0 -> nofail (s_sched s) ->
  exists vs, sights cd (s_data s) = Some vs /\ forall n, (length vs < n)%nat -> exists zs, front_to_back cd cfg n s = Ok zs /\
    Forall2 (fun v z => met v (fst z) /\ snd z = v_content v) vs zs.
Proof. exact (accepted_front cfg cd s). Qed.
Print Assumptions C64_front_partial.
(** The DEFLATE decoder is one that ends by itself. *)
Theorem C64_deflate_ends : self_ending flate.
Proof. exact flate_self_ending. Qed.
Print Assumptions C64_deflate_ends.

Lemma toy_self_ending : self_ending toy.
Proof.
  intros c z x rest _ E. cbn [toy dec] in *.
  assert (G : forall n l o k, (length l <= n)%nat -> toy_dec l = (o, Some k) -> toy_dec (l ++ rest) = (o, Some k)).
  { induction n as [|n IH]; intros l o k Hl H; [destruct l; [discriminate|cbn in Hl; lia]|]. destruct l as [|a l]; [discriminate|]. cbn [toy_dec app] in *. cbn [length] in Hl.
    destruct a; try discriminate; [exact H|]. destruct l as [|b l]; [discriminate|]. cbn [app]. destruct (toy_dec l) as [o1 [k1|]] eqn:T; [|discriminate].
    cbn [length] in Hl. rewrite (IH l o1 k1 ltac:(lia) T). exact H. }
  exact (G _ _ _ _ (le_n _) E).
Qed.
Definition walk_check (d : bytes) : bool := match SpecAccept.directory d with Some (r :: rs) => forallb (walkable d) (r :: rs) | _ => false end.
Lemma walk_checked d rs : walk_check d = true -> SpecAccept.directory d = Some rs -> rs <> [] /\ Forall (fun r => walkable d r = true) rs.
Proof.
  unfold walk_check. intros W E. rewrite E in W. destruct rs as [|r rs]; [discriminate|]. split; [discriminate|]. now apply Forall_forall, forallb_forall.
Qed.
Example C64_case : strict toy (foreign comment0) = true /\ self_ending toy /\ len (foreign comment0) <= u64_max /\
  (forall rs, SpecAccept.directory (foreign comment0) = Some rs -> rs <> [] /\ Forall (fun r => walkable (foreign comment0) r = true) rs) /\
  option_map (map v_content) (sights toy (foreign comment0)) = Some [data1; [x78; x79]].
Proof.
  split; [vm_compute; reflexivity|]. split; [exact toy_self_ending|]. split; [vm_compute; discriminate|]. split; [|vm_compute; reflexivity].
  intros rs. apply walk_checked. vm_compute. reflexivity.
Qed.
Example C64_case_fixtures : forallb (fun d => strict flate d && walk_check d) [zip64_zip; utf8_extra_zip] = true.
Proof. vm_compute. reflexivity. Qed.

(** Not every archive that passes: not an empty one, not one with a descriptor behind stored data, and not one with a long descriptor,
    after which the next header is looked for in the wrong place. *)
Definition fourth (needed flags : N) (m : compression) (data : bytes) : member :=
  {| a_made_by := 0x031E; a_needed := needed; a_flags := flags; a_method := m; a_time := 0; a_date := 33;
     a_crc := crc32_spec data1; a_usize := 3; a_csize := len data; a_offset := 0; a_disk := 0;
     a_u64 := false; a_c64 := false; a_o64 := false; a_d64 := false; a_iattr := 0; a_eattr := 0;
     a_name := [x61]; a_comment := []; a_before := []; a_after := [] |}.
Definition described_stored : bytes :=
  let p := local_header 10 0x0008 0 0 33 0 0 0 1 0 ++ [x61] ++ data1 ++ data_descriptor32 (crc32_spec data1) 3 3 in
  p ++ members [fourth 10 0x0008 Stored data1] ++ end_record 0 0 1 1 (len (members [fourth 10 0x0008 Stored data1])) (len p) 0.
Definition described_long : bytes :=
  let z := [x01; x68; x01; x69; x01; x21; x00] in
  let p := local_header 45 0x0008 8 0 33 0 0xFFFFFFFF 0xFFFFFFFF 1 20 ++ [x61] ++ extra 1 (le 8 0 ++ le 8 0) ++ z ++
    record [(4%nat, 0x08074b50); (4%nat, crc32_spec data1); (8%nat, 7); (8%nat, 3)] in
  p ++ members [fourth 45 0x0008 Deflate z] ++ end_record 0 0 1 1 (len (members [fourth 45 0x0008 Deflate z])) (len p) 0.
Theorem C64_refuted : forallb (strict toy) [zip_empty; described_stored; described_long] = true /\
  map (fun d => option_map (map v_content) (sights toy d)) [zip_empty; described_stored; described_long] = [Some []; Some [data1]; Some [data1]] /\
  map (fun d => front_to_back toy cfg0 5 (cursor d)) [zip_empty; described_stored; described_long] =
    [Err (UnexpectedHeaderError 0x06054b50 0x04034b50); Err (FeatureNotSupported FStreamStored); Err (UnexpectedHeaderError 3 0x04034b50)].
Proof. split; [vm_compute; reflexivity|]. split; vm_compute; reflexivity. Qed.
Print Assumptions C64_refuted.
