(** Property theorems: the extraction example. *)
From Verif Require Import Base SpecFormat SpecCrc SpecArchive SpecRead SpecExtract ZString Headers ExtraField Entry IO Reader EntryReader Extract ExtractProofs Samples BaseFacts.

(** * C60. Extraction stays below the output directory, whatever names the archive holds. *)
Theorem C60_path sanitize dir name : plain_names sanitize -> inside dir (target sanitize dir name).
Proof. exact (target_inside sanitize dir name). Qed.
Print Assumptions C60_path.

(** Where it goes: from the directory down the sanitized parts of the name, which end at slashes and at backslashes;
    parts that come out empty are left out. *)
Theorem C60_where sanitize dir name : plain_names sanitize ->
  (forall ps a, parts name ps -> walks dir a ->
    walks (target sanitize dir name) (a ++ filter (fun q => negb (bytes_eqb q [])) (map sanitize ps))) /\
  (exists ps, parts name ps) /\ exists a, walks dir a.
Proof.
  intros P. split; [intros ps a; exact (target_where sanitize dir name ps a P)|].
  exact (conj (parts_total name) (walks_total dir)).
Qed.
Print Assumptions C60_where.

(** Whatever the bytes of the archive, however they are delivered and whatever the operating system answers:
    every directory and file that is made is inside. *)
Theorem C60_inside cd cfg sanitize t dir s : plain_names sanitize ->
  let '(_, h, _) := unzip_file cd cfg sanitize t dir s in Forall (fun a => inside dir (acts_on a)) h.
Proof. exact (unzip_inside cd cfg sanitize t dir s). Qed.
Print Assumptions C60_inside.

(** No entry replaces what another one left. *)
Theorem C60_apart cd cfg sanitize t dir s : exclusive t ->
  let '(_, h, _) := unzip_file cd cfg sanitize t dir s in
  NoDup (created h) /\ NoDup (map fst (filled h)) /\ incl (map fst (filled h)) (created h).
Proof. exact (unzip_apart cd cfg sanitize t dir s). Qed.
Print Assumptions C60_apart.

(** If it finishes, the files are those of the archive, in order, each with what its bytes decode to. *)
Theorem C60_files cd cfg sanitize t dir s :
  let '(r, h, _) := unzip_file cd cfg sanitize t dir s in
  r = Ok tt -> exists f, fst (seek_new cfg s) = Ok f /\
    Forall2 (extracted cd sanitize dir (s_data s)) (filter is_file (f_entries f)) (filled h).
Proof. exact (unzip_files cd cfg sanitize t dir s). Qed.
Print Assumptions C60_files.

(** A path takes one walk, so that being inside is a matter of the path alone. *)
Theorem C60_walks p a b : walks p a -> walks p b -> a = b.
Proof. exact (walks_unique p a b). Qed.
Print Assumptions C60_walks.

(** a sanitizer that strips slashes, and a file system that allows everything but making a file twice *)
Definition strip (c : bytes) : bytes :=
  let c := filter (fun b => negb (b2n b =? 0x2F)) c in if bytes_eqb c [x2e] || bytes_eqb c [x2e; x2e] then [] else c.
Lemma strip_plain : plain_names strip.
Proof.
  intro c. unfold strip. set (k := filter _ c). assert (A : ~ In x2f k) by (unfold k; rewrite filter_In; now intros [_ H]).
  destruct (bytes_eqb k [x2e]) eqn:E1; cbn [orb]; [now repeat split|]. destruct (bytes_eqb k [x2e; x2e]) eqn:E2; [now repeat split|].
  split; [exact A|]. split; intro X; rewrite X in *; discriminate.
Qed.
Definition permissive : tree :=
  {| t_exists _ _ := false; t_parent_is_dir h p := existsb (fun a => match a with MakeParent _ => true | _ => false end) h;
     t_accepts h a := match a with CreateNew p => negb (existsb (bytes_eqb p) (created h)) | _ => true end |}.
Lemma permissive_exclusive : exclusive permissive.
Proof.
  intros h p H I. cbn in H. apply Bool.negb_true_iff in H. assert (X : existsb (bytes_eqb p) (created h) = true).
  { apply existsb_exists. exists p. split; [exact I|]. now apply bytes_eqb_eq. }
  congruence.
Qed.
(** "/../../a\b", "d/" and "..", in a directory "/o/../p" *)
Definition naming (m : member) (n : bytes) : member :=
  {| a_made_by := a_made_by m; a_needed := a_needed m; a_flags := a_flags m; a_method := a_method m; a_time := a_time m; a_date := a_date m;
     a_crc := a_crc m; a_usize := a_usize m; a_csize := a_csize m; a_offset := a_offset m; a_disk := a_disk m;
     a_u64 := false; a_c64 := false; a_o64 := false; a_d64 := false; a_iattr := 0; a_eattr := 0; a_name := n; a_comment := []; a_before := []; a_after := [] |}.
Definition slippery : list member :=
  [naming member1 [x2f; x2e; x2e; x2f; x2e; x2e; x2f; x61; x5c; x62]; naming member1 [x64; x2f]; naming member2 [x2e; x2e; x2f; x63]].
Definition packed (b : bytes) (l : list member) : bytes :=
  b ++ members l ++ end_record 0 0 (len l) (len l) (len (members l)) (len b) 0.
Definition here : bytes := [x2f; x6f; x2f; x2e; x2e; x2f; x70].
Example C60_case : plain_names strip /\ exclusive permissive /\
  let '(r, h, _) := unzip_file toy cfg0 strip permissive here (cursor (packed body slippery)) in
  r = Ok tt /\
  h = [MakeParent (here ++ [x2f; x61; x2f; x62]); CreateNew (here ++ [x2f; x61; x2f; x62]); Fill (here ++ [x2f; x61; x2f; x62]) data1;
       MakeDirs (here ++ [x2f; x64; x2f]); CreateNew (here ++ [x2f; x63]); Fill (here ++ [x2f; x63]) [x78; x79]].
Proof. split; [exact strip_plain|]. split; [exact permissive_exclusive|]. vm_compute. split; reflexivity. Qed.

(** Without the sanitizer the names lead out of the directory: the library hands them over as they are. *)
Theorem C60_raw_names : exists name, ~ inside here (target (fun c => c) here name).
Proof.
  exists [x2e; x2e; x2f; x61]. intros (a & b & A & B & N & _).
  assert (W : walks here [[x6f]; [x2e; x2e]; [x70]]) by (exists (split_slash here); split; [apply split_pieces|reflexivity]).
  assert (V : walks (target (fun c => c) here [x2e; x2e; x2f; x61]) [[x6f]; [x2e; x2e]; [x70]; [x2e; x2e]; [x61]])
    by (eexists (split_slash _); split; [apply split_pieces|reflexivity]).
  rewrite (walks_unique _ _ _ A W) in B. pose proof (walks_unique _ _ _ B V) as E. cbn [app] in E. injection E as ->. apply N. now left.
Qed.
Print Assumptions C60_raw_names.

(** The example does not check what it extracts: an archive whose content does not match its checksum is extracted
    as if nothing were wrong, although a checked read refuses it. *)
Definition damaged : bytes := local1 ++ [x68; x6f; x21].
Theorem C60_unchecked : exists s f, fst (seek_new cfg0 s) = Ok f /\ read_entry toy f 0 s = Err CRC32CheckError /\
  let '(r, h, _) := unzip_file toy cfg0 strip permissive here s in
  r = Ok tt /\ filled h = [(here ++ [x2f; x61], [x68; x6f; x21])].
Proof.
  exists (cursor (packed damaged [naming member1 [x61]])).
  destruct (fst (seek_new cfg0 (cursor (packed damaged [naming member1 [x61]])))) as [f|x|x] eqn:E; [|vm_compute in E; discriminate E..].
  exists f. split; [reflexivity|]. split.
  - vm_compute in E. injection E as <-. vm_compute. reflexivity.
  - vm_compute. split; reflexivity.
Qed.
Print Assumptions C60_unchecked.
