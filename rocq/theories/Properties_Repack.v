(** Property theorems: archives whose entries were read and written to another one. *)
From Verif Require Utf8Facts.
From Verif Require Import Base SpecFormat SpecCrc SpecUtf8 SpecArchive SpecRead SpecWrite SpecCopy SpecStrict SpecAccept SpecExact SpecRepack ZString ZDate Headers ExtraField Entry
  IO Reader EntryReader Writer Samples WriteSamples RepackProofs Properties_Accept Properties_Further Properties_Exact.

(** * C92. Repacking. What passes the strict check can be read entry by entry ... *)
Theorem C92_taken_partial cfg cd d : strict cd d = true -> plain_archive d -> len d <= u64_max ->
  (forall rs, SpecAccept.directory d = Some rs -> len rs * entry_mem_size cfg <= isize_max) ->
  exists vs es, sights cd d = Some vs /\ taken cd cfg d es /\ map v_content vs = map snd es.
Proof. exact (taken_strict cfg cd d). Qed.
Print Assumptions C92_taken_partial.
(** ... and once the entries were written to another archive, the same are seen there; it passes the check exactly if the
    names of directories are told as UTF-8 or their method needs version 2.0. *)
Theorem C92_repacked_partial cd cfg sched d es vs : codec_ok cd -> strict cd d = true -> plain_archive d -> len d <= u64_max ->
  (forall rs, SpecAccept.directory d = Some rs -> len rs * entry_mem_size cfg <= isize_max) ->
  taken cd cfg d es -> sights cd d = Some vs -> Forall portable es ->
  let '(xs, r, w) := run_archive cd sched (copy_ops es) in
  r = Ok tt -> Forall (fun x => worked (snd x) = true) xs -> len (w_bytes w) <= 0xFFFFFFFF -> end_clear (w_zip64 w) [] (w_bytes w) ->
  (strict cd (w_bytes w) = true <-> Forall (fun x => tidy_name (fst x)) es) /\
  exists vs', sights cd (w_bytes w) = Some vs' /\ Forall2 same_sight vs vs'.
Proof. exact (repacked cd cfg sched d es vs). Qed.
Print Assumptions C92_repacked_partial.
(** Whatever archive is opened, its entries without ZIP64 field are such as the writer is claimed to take. *)
Theorem C92_entries cfg s f st : fst (file cfg s) = Ok f -> In st (f_entries f) -> unwide (st_entry st) -> entry_fine (st_entry st).
Proof. exact (opened_fine cfg s f st). Qed.
Print Assumptions C92_entries.
(** * C40 for whatever was opened: such entries can be copied, unless UTF-8 is claimed falsely. *)
Theorem C40_opened_partial cfg s f x rs st data : fst (file cfg s) = Ok f -> says (s_data s) x rs -> Forall truthful rs -> In st (f_entries f) ->
  unwide (st_entry st) -> len data <= 0xFFFFFFFF -> copyable (st_entry st, data).
Proof. exact (opened_copyable cfg s f x rs st data). Qed.
Print Assumptions C40_opened_partial.
(** one of the two entries has a ZIP64 field, the other is met; its archive claims UTF-8 *)
Example C40_opened_case : exists f a b, fst (file cfg0 (cursor sample64)) = Ok f /\ says sample64 end64 [row1; row2] /\ Forall truthful [row1; row2] /\
  f_entries f = [a; b] /\ unwide (st_entry a) /\ ~ unwide (st_entry b) /\ N.testbit (w_flags row1) 11 = true.
Proof.
  eexists. eexists. eexists. split; [vm_compute; reflexivity|]. split; [exact (proj1 C65_case)|].
  split; [|split; [reflexivity|split; [repeat constructor|split; [intros H; now inversion H|reflexivity]]]].
  constructor; [|constructor; [|constructor]].
  - intros _. split.
    + apply Utf8Facts.utf8_valid_iff. vm_compute. reflexivity.
    + apply Utf8Facts.utf8_valid_iff. vm_compute. reflexivity.
  - intros H. now vm_compute in H.
Qed.

(** An archive of another program: a name with a Unicode field, compressed data with a descriptor, a directory. *)
Definition brought (dir : bytes) : list member :=
  [{| a_made_by := 0x031E; a_needed := 10; a_flags := 0x0002; a_method := Stored; a_time := 0; a_date := 33;
     a_crc := crc32_spec data1; a_usize := 3; a_csize := 3; a_offset := 0; a_disk := 0;
     a_u64 := false; a_c64 := false; a_o64 := false; a_d64 := false; a_iattr := 0; a_eattr := 0x81A40000;
     a_name := [x82]; a_comment := [x6b]; a_before := []; a_after := [XPath (UV1 (crc32_spec [x82]) [xc3; xa9]); XUnknown 0xCAFE 2 [x01; x02]] |};
   {| a_made_by := 0x031E; a_needed := 20; a_flags := 0x0008; a_method := Deflate; a_time := 7; a_date := 33;
     a_crc := crc32_spec [x78; x79]; a_usize := 2; a_csize := 5; a_offset := 34; a_disk := 0;
     a_u64 := false; a_c64 := false; a_o64 := false; a_d64 := false; a_iattr := 0; a_eattr := 0;
     a_name := [x62; x2f; x63]; a_comment := []; a_before := []; a_after := [XUnknown 0x1234 0 []] |};
   {| a_made_by := 0x031E; a_needed := 20; a_flags := 0; a_method := Stored; a_time := 0; a_date := 33;
     a_crc := 0; a_usize := 0; a_csize := 0; a_offset := 88; a_disk := 0;
     a_u64 := false; a_c64 := false; a_o64 := false; a_d64 := false; a_iattr := 0; a_eattr := 0x10;
     a_name := dir; a_comment := []; a_before := []; a_after := [] |}].
Definition brought_front (dir : bytes) : bytes :=
  local_header 10 0x0002 0 0 33 (crc32_spec data1) 3 3 1 0 ++ [x82] ++ data1 ++
  local_header 20 0x0008 8 7 33 0 0 0 3 0 ++ [x62; x2f; x63] ++ data2 ++ data_descriptor32 (crc32_spec [x78; x79]) 5 2 ++
  local_header 20 0 0 0 33 0 0 0 2 0 ++ dir.
Definition brought_archive (dir : bytes) : bytes :=
  brought_front dir ++ members (brought dir) ++ end_record 0 0 3 3 (len (members (brought dir))) (len (brought_front dir)) 2 ++ [x68; x69].
Lemma brought_plain dir : plain_check cfg0 (brought_archive dir) = true -> plain_archive (brought_archive dir) /\
  (forall rs, SpecAccept.directory (brought_archive dir) = Some rs -> len rs * entry_mem_size cfg0 <= isize_max).
Proof. apply plain_checked. Qed.
Definition classic (e : zentry) : bool := forallb (fun f => match f with XZip64 _ => false | _ => true end) (en_extra e).
Lemma portable_ok es : forallb (fun x => classic (fst x) && (len (snd x) <=? 0xFFFFFFFF)) es = true -> Forall portable es.
Proof.
  intro H. apply Forall_forall. intros x I. rewrite forallb_forall in H. specialize (H x I). apply andb_true_iff in H as [H1 H2]. split; [|now apply N.leb_le].
  apply Forall_forall. intros f J. unfold classic in H1. rewrite forallb_forall in H1. specialize (H1 f J). now destruct f.
Qed.
(** what it comes to: the entries taken, and whether the copy passes *)
Definition carried (dir : bytes) : option (list (zentry * bytes) * bool * list bytes) :=
  match pull (brought_archive dir) with
  | Some es =>
    let '(xs, r, w) := run_archive toy bumpy (copy_ops es) in
    if worked r && forallb (fun x => worked (snd x)) xs && (len (w_bytes w) <=? 0xFFFFFFFF) && clear_end xs (w_zip64 w) [] (w_bytes w) &&
       forallb (fun x => classic (fst x) && (len (snd x) <=? 0xFFFFFFFF)) es
    then match sights toy (w_bytes w) with Some vs => Some (es, strict toy (w_bytes w), map v_content vs) | None => None end else None
  | None => None
  end.
Example C92_case : exists es, strict toy (brought_archive [x64; x2f]) = true /\ plain_archive (brought_archive [x64; x2f]) /\ len (brought_archive [x64; x2f]) <= u64_max /\
  (forall rs, SpecAccept.directory (brought_archive [x64; x2f]) = Some rs -> len rs * entry_mem_size cfg0 <= isize_max) /\
  taken toy cfg0 (brought_archive [x64; x2f]) es /\ Forall portable es /\ Forall (fun x => tidy_name (fst x)) es /\ map snd es = [data1; [x78; x79]; []] /\
  let '(xs, r, w) := run_archive toy bumpy (copy_ops es) in
  r = Ok tt /\ Forall (fun x => worked (snd x) = true) xs /\ len (w_bytes w) <= 0xFFFFFFFF /\ end_clear (w_zip64 w) [] (w_bytes w).
Proof.
  assert (P : plain_check cfg0 (brought_archive [x64; x2f]) = true) by (vm_compute; reflexivity). apply brought_plain in P as [P1 P2].
  assert (C : match carried [x64; x2f] with Some (es, s, cs) => s = true /\ cs = [data1; [x78; x79]; []] /\ map snd es = [data1; [x78; x79]; []] /\
    map (fun x => dir_name (stored_bytes (en_filename (fst x)))) es = [false; false; true] /\
    map (fun x => en_filename (fst x)) (skipn 2 es) = [{| zs_enc := EUtf8; zs_raw := [x64; x2f]; zs_alt := None |}] | None => False end) by (vm_compute; repeat split; reflexivity).
  unfold carried in C. destruct (pull (brought_archive [x64; x2f])) as [es|] eqn:PU; [|contradiction]. apply pull_ok in PU.
  exists es. split; [vm_compute; reflexivity|]. split; [exact P1|]. split; [vm_compute; discriminate|]. split; [exact P2|]. split; [exact PU|].
  destruct (run_archive toy bumpy (copy_ops es)) as [[xs r] w]. destruct (_ && _) eqn:B; [|contradiction].
  apply andb_true_iff in B as [B B5]. apply andb_true_iff in B as [B B4]. apply andb_true_iff in B as [B B3]. apply andb_true_iff in B as [B1 B2].
  destruct (sights toy (w_bytes w)) as [vs|]; [|contradiction]. destruct C as (C1 & C2 & C3 & C4 & C5).
  split; [now apply portable_ok|]. split.
  { destruct es as [|e1 [|e2 [|e3 [|]]]]; try discriminate. cbn [map] in C4. injection C4 as D1 D2 D3. cbn [map skipn] in C5. injection C5 as C5.
    constructor; [|constructor; [|constructor; [|constructor]]]; intro D; [congruence|congruence|]. left. rewrite C5. split; [reflexivity|]. now exists [x64]. }
  split; [exact C3|]. split; [destruct r as [[]| |]; try discriminate; reflexivity|]. split; [apply Forall_forall; now apply forallb_forall|].
  split; [now apply N.leb_le|]. now pose proof (clear_end_ok toy [] _ _ _ B4) as (_ & _ & _ & E & _).
Qed.
(** Not every one: the same archive with a name for its directory that is not ASCII and not told as UTF-8, as older programs
    write it. The copy announces version 1.0 for the directory, which needs 2.0, so that it fails the check. *)
Theorem C92_refuted : exists d es, strict toy d = true /\ plain_archive d /\ taken toy cfg0 d es /\ Forall portable es /\ map snd es = [data1; [x78; x79]; []] /\
  let '(xs, r, w) := run_archive toy bumpy (copy_ops es) in
  r = Ok tt /\ Forall (fun x => worked (snd x) = true) xs /\ len (w_bytes w) <= 0xFFFFFFFF /\ end_clear (w_zip64 w) [] (w_bytes w) /\ strict toy (w_bytes w) = false.
Proof.
  assert (P : plain_check cfg0 (brought_archive [x82; x2f]) = true) by (vm_compute; reflexivity). apply brought_plain in P as [P1 _].
  assert (C : match carried [x82; x2f] with Some (es, s, cs) => s = false /\ map snd es = [data1; [x78; x79]; []] | None => False end) by (vm_compute; repeat split; reflexivity).
  unfold carried in C. destruct (pull (brought_archive [x82; x2f])) as [es|] eqn:PU; [|contradiction]. apply pull_ok in PU.
  exists (brought_archive [x82; x2f]), es. split; [vm_compute; reflexivity|]. split; [exact P1|]. split; [exact PU|].
  destruct (run_archive toy bumpy (copy_ops es)) as [[xs r] w]. destruct (_ && _) eqn:B; [|contradiction].
  apply andb_true_iff in B as [B B5]. apply andb_true_iff in B as [B B4]. apply andb_true_iff in B as [B B3]. apply andb_true_iff in B as [B1 B2].
  destruct (sights toy (w_bytes w)) as [vs|]; [|contradiction]. destruct C as (C1 & C2).
  split; [now apply portable_ok|]. split; [exact C2|]. split; [destruct r as [[]| |]; try discriminate; reflexivity|]. split; [apply Forall_forall; now apply forallb_forall|].
  split; [now apply N.leb_le|]. split; [|exact C1]. now pose proof (clear_end_ok toy [] _ _ _ B4) as (_ & _ & _ & E & _).
Qed.
Print Assumptions C92_refuted.
