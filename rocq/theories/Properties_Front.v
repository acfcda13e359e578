(** Properties C46 and C47: reading archives of any origin front to back, and the two ways of reading side by side. *)
From Verif Require Import Base BaseFacts SpecFormat SpecCrc SpecArchive SpecRead SpecWrite SpecStream ZString ZDate Headers ExtraField Entry IO Reader
  EntryReader StreamReader Writer SpecFront IOFacts Samples ReadProofs WriteSamples Zip64Proofs StreamProofs StreamWalk FrontProofs Properties_Read Properties_Archive Properties_Stream.

(** * C46. Entries lying one behind the other, from wherever the source stands; [y] is what follows them. *)
Theorem C46_passes cd cfg s l pre y fin : Forall (fun x => piece_holds cd (fst x) (snd x)) l -> said_at y fin ->
  s_data s = pre ++ pieces (map fst l) ++ y -> s_pos s = len pre -> nofail (s_sched s) -> len (s_data s) < 0x10000000000000000 ->
  passes cd cfg fin l s.
Proof.
  intros F S E P N L. apply (front cd cfg (s_data s) fin y L S l F s (len pre)); [now split|]. rewrite E. now apply drop_app_exact.
Qed.
Print Assumptions C46_passes.

(** A caller that reads everything gets every entry and every content. *)
Theorem C46_all cd cfg s l pre y : Forall (fun x => piece_holds cd (fst x) (snd x)) l ->
  s_data s = pre ++ pieces (map fst l) ++ le 4 0x02014b50 ++ y -> s_pos s = len pre -> nofail (s_sched s) -> len (s_data s) < 0x10000000000000000 ->
  forall n, (length l < n)%nat -> exists zs, front_to_back cd cfg n s = Ok zs /\
    Forall2 (fun x z => head_shown (p_head (fst x)) (fst z) /\ snd z = snd x) l zs.
Proof.
  intros F E P N L. apply front_all. apply (C46_passes cd cfg s l pre (le 4 0x02014b50 ++ y)); try assumption. now apply said_end with y.
Qed.
Print Assumptions C46_all.

(** the entries of [sample], and one whose descriptor has no signature *)
Definition head1 : member :=
  {| a_made_by := 0; a_needed := 10; a_flags := 0x0800; a_method := Stored; a_time := 0; a_date := 33;
     a_crc := crc32_spec data1; a_usize := 3; a_csize := 3; a_offset := 0; a_disk := 0;
     a_u64 := false; a_c64 := false; a_o64 := false; a_d64 := false; a_iattr := 0; a_eattr := 0;
     a_name := [x61]; a_comment := []; a_before := []; a_after := [] |}.
Definition head2 : member :=
  {| a_made_by := 0; a_needed := 20; a_flags := 0x0008; a_method := Deflate; a_time := 7; a_date := 33;
     a_crc := 0; a_usize := 0; a_csize := 0; a_offset := 0; a_disk := 0;
     a_u64 := false; a_c64 := false; a_o64 := false; a_d64 := false; a_iattr := 0; a_eattr := 0;
     a_name := [x62; x2f; x63]; a_comment := []; a_before := []; a_after := [] |}.
Definition head3 : member :=
  {| a_made_by := 0; a_needed := 45; a_flags := 0; a_method := Deflate; a_time := 7; a_date := 33;
     a_crc := crc32_spec [x78; x79]; a_usize := 2; a_csize := 5; a_offset := 0; a_disk := 0;
     a_u64 := true; a_c64 := true; a_o64 := false; a_d64 := false; a_iattr := 0; a_eattr := 0;
     a_name := [x64]; a_comment := []; a_before := [XUnknown 0xCAFE 1 [x07]]; a_after := [] |}.
Definition piece1 : piece := {| p_head := head1; p_data := data1; p_signed := true; p_dcrc := 0; p_dcsize := 0; p_dusize := 0 |}.
Definition piece2 (signed : bool) : piece :=
  {| p_head := head2; p_data := data2; p_signed := signed; p_dcrc := crc32_spec [x78; x79]; p_dcsize := 5; p_dusize := 2 |}.
Definition piece3 : piece := {| p_head := head3; p_data := data2; p_signed := true; p_dcrc := 0; p_dcsize := 0; p_dusize := 0 |}.
Lemma heads_ok : member_ok head1 /\ member_ok head2 /\ member_ok head3.
Proof. repeat split; cbn; try easy; repeat constructor; try discriminate. Qed.
Lemma piece1_holds : piece_holds toy piece1 data1.
Proof. split; [apply heads_ok|]. split; [reflexivity|]. split; reflexivity. Qed.
Lemma piece2_holds signed : piece_holds toy (piece2 signed) [x78; x79].
Proof.
  split; [apply heads_ok|]. split; [reflexivity|]. change (p_streamed (piece2 signed)) with true. cbv iota. cbn [p_head piece2 p_data p_dcrc p_signed].
  split; [discriminate|]. split; [reflexivity|]. split; [vm_compute; reflexivity|]. intros _. vm_compute. discriminate.
Qed.
Lemma piece3_holds : piece_holds toy piece3 [x78; x79].
Proof. split; [apply heads_ok|]. split; [reflexivity|]. split; reflexivity. Qed.
Definition four : list (piece * bytes) := [(piece1, data1); (piece2 true, [x78; x79]); (piece2 false, [x78; x79]); (piece3, [x78; x79])].
Definition foreign : bytes := [xff; xff] ++ pieces (map fst four) ++ le 4 0x02014b50 ++ [x00].
Example C46_case : exists zs, front_to_back toy cfg0 5 {| s_data := foreign; s_pos := 2; s_sched := [RChunk 3; RPending; RChunk 0; RChunk 0] |} = Ok zs /\
  Forall2 (fun x z => head_shown (p_head (fst x)) (fst z) /\ snd z = snd x) four zs.
Proof.
  refine (C46_all toy cfg0 {| s_data := foreign; s_pos := 2; s_sched := [RChunk 3; RPending; RChunk 0; RChunk 0] |} four [xff; xff] [x00] _ _ _ _ _ 5%nat _); try reflexivity.
  - constructor; [exact piece1_holds|]. constructor; [exact (piece2_holds true)|]. constructor; [exact (piece2_holds false)|]. constructor; [exact piece3_holds|constructor].
  - repeat constructor.
  - cbn. lia.
Qed.
Example C46_case_ends : passes toy cfg0 (Err (UpstreamReadError UnexpectedEof)) [(piece1, data1)] (cursor (piece_image piece1 ++ [x50; x4b])) /\
  passes toy cfg0 (Err (UnexpectedHeaderError 0x06054b50 0x04034b50)) [] (cursor (le 4 0x06054b50 ++ repeat x00 18)).
Proof.
  split.
  - refine (C46_passes toy cfg0 (cursor (piece_image piece1 ++ [x50; x4b])) [(piece1, data1)] [] [x50; x4b] _ _ (said_cut _ _) _ _ _ _); try reflexivity;
      constructor; [exact piece1_holds|constructor].
  - refine (C46_passes toy cfg0 (cursor (le 4 0x06054b50 ++ repeat x00 18)) [] [] _ _ _ (said_wrong _ 0x06054b50 (repeat x00 18) _ _ _ _) _ _ _ _); try reflexivity; try discriminate; constructor.
Qed.

(** Not with the descriptors of the ZIP64 format: eight bytes of them are taken for the next header. *)
Theorem C46_refuted : exists d, d = head_record head2 ++ data2 ++ descriptor true true (crc32_spec [x78; x79]) 5 2 ++ le 4 0x02014b50 ++ [x00] /\
  forall n, (1 < n)%nat -> front_to_back toy cfg0 n (cursor d) = Err (UnexpectedHeaderError 2 0x04034b50).
Proof.
  eexists. split; [reflexivity|]. intros [|[|n]] Hn; [lia|lia|]. 
  enough (H : forall k, front_to_back toy cfg0 (S (S k)) (cursor (head_record head2 ++ data2 ++ descriptor true true (crc32_spec [x78; x79]) 5 2 ++ le 4 0x02014b50 ++ [x00])) =
    Err (UnexpectedHeaderError 2 0x04034b50)) by apply H. intro k. vm_compute. reflexivity.
Qed.
Print Assumptions C46_refuted.

(** * C47. The directory and the entries themselves tell the same. *)
Theorem C47_classic cd cfg s s0 l ms gap disk cd_size comment tail : l <> [] ->
  Forall (fun x => piece_holds cd (fst x) (snd x)) l -> described 0 l ms ->
  s_data s = pieces (map fst l) ++ members ms ++ gap ++ end_record disk disk (len ms) (len ms) cd_size (len (pieces (map fst l))) (len comment) ++ comment ++ tail ->
  disk < 0x10000 -> len ms < 0x10000 -> cd_size < 0x100000000 -> len (pieces (map fst l)) < 0x100000000 -> len (s_data s) < 0x10000000000000000 ->
  len comment + len tail <= 65535 ->
  (forall q, found_at (le 4 0x06054b50) (s_data s) q -> q <= len (pieces (map fst l) ++ members ms ++ gap)) ->
  (forall q, found_at (le 4 0x07064b50) (s_data s) q -> q + 20 <> len (pieces (map fst l) ++ members ms ++ gap)) ->
  nofail (s_sched s) -> len ms * entry_mem_size cfg <= isize_max -> stands s0 (s_data s) 0 ->
  forall n, (length l < n)%nat ->
  exists f zs, fst (file cfg s) = Ok f /\ front_to_back cd cfg n s0 = Ok zs /\ map snd zs = map snd l /\
    Forall2 (fun x e => same_view (fst x) e) zs (f_entries f) /\
    forall i x, nth_error zs (N.to_nat i) = Some x -> read_entry cd f i s = Ok (snd x).
Proof.
  intros NE F DS E H1 H2 H3 H4 HL H5 H6 H7 N M S0 n Hn.
  assert (MO : Forall member_ok ms).
  { clear - DS. revert ms DS. generalize 0. induction l as [|[p o] l IH]; intros k [|m ms] DS; try easy. cbn [described] in DS.
    destruct DS as (A & _ & _ & _ & _ & _ & _ & _ & _ & _ & DS). constructor; [exact A|exact (IH _ _ DS)]. }
  destruct (C03_classic cfg s ms _ gap disk cd_size comment tail MO E H1 H2 H3 H4 H5 H6 H7 N M) as (f & O & R & _ & _).
  destruct (agree_from cd cfg s s0 l ms _ f NE F DS E HL N S0 R n Hn) as (zs & Z). exists f, zs. split; [exact O|exact Z].
Qed.
Print Assumptions C47_classic.

Theorem C47_zip64 cd cfg s s0 l ms gap between comment tail size made_by needed zdisk zcd zn1 zn2 zsize zoff ldisk ldisks
    disk cd_disk n1 n2 cd_size off : l <> [] ->
  Forall (fun x => piece_holds cd (fst x) (snd x)) l -> described 0 l ms ->
  let lead := pieces (map fst l) in
  s_data s = lead ++ members ms ++ gap ++ zip64_end size made_by needed zdisk zcd zn1 zn2 zsize zoff ++ between ++
             zip64_end_locator ldisk (len (lead ++ members ms ++ gap)) ldisks ++
             end_record disk cd_disk n1 n2 cd_size off (len comment) ++ comment ++ tail ->
  size < 0x10000000000000000 -> made_by < 0x10000 -> needed < 0x10000 -> zdisk < 0x100000000 -> zcd < 0x100000000 ->
  zn1 < 0x10000000000000000 -> zn2 < 0x10000000000000000 -> zsize < 0x10000000000000000 -> zoff < 0x10000000000000000 ->
  ldisk < 0x100000000 -> ldisks < 0x100000000 -> len (s_data s) < 0x10000000000000000 ->
  disk < 0x10000 -> cd_disk < 0x10000 -> n1 < 0x10000 -> n2 < 0x10000 -> cd_size < 0x100000000 -> off < 0x100000000 ->
  chosen 0xFFFF disk zdisk = chosen 0xFFFF cd_disk zcd ->
  chosen 0xFFFF n1 zn1 = len ms -> chosen 0xFFFF n2 zn2 = len ms -> chosen 0xFFFFFFFF off zoff = len lead ->
  len comment + len tail <= 65535 ->
  (forall q, found_at (le 4 0x06054b50) (s_data s) q -> q + 22 + len comment + len tail <= len (s_data s)) ->
  nofail (s_sched s) -> len ms * entry_mem_size cfg <= isize_max -> stands s0 (s_data s) 0 ->
  forall n, (length l < n)%nat ->
  exists f zs, fst (file cfg s) = Ok f /\ front_to_back cd cfg n s0 = Ok zs /\ map snd zs = map snd l /\
    Forall2 (fun x e => same_view (fst x) e) zs (f_entries f) /\
    forall i x, nth_error zs (N.to_nat i) = Some x -> read_entry cd f i s = Ok (snd x).
Proof.
  intros NE F DS lead E H1 H2 H3 H4 H5 H6 H7 H8 H9 H10 H11 HL H12 H13 H14 H15 H16 H17 H18 H19 H20 H21 H22 H23 N M S0 n Hn.
  assert (MO : Forall member_ok ms).
  { clear - DS. revert ms DS. generalize 0. induction l as [|[p o] l IH]; intros k [|m ms] DS; try easy. cbn [described] in DS.
    destruct DS as (A & _ & _ & _ & _ & _ & _ & _ & _ & _ & DS). constructor; [exact A|exact (IH _ _ DS)]. }
  destruct (C03_zip64 cfg s ms lead gap between comment tail size made_by needed zdisk zcd zn1 zn2 zsize zoff ldisk ldisks disk cd_disk n1 n2 cd_size off
    MO E H1 H2 H3 H4 H5 H6 H7 H8 H9 H10 H11 HL H12 H13 H14 H15 H16 H17 H18 H19 H20 H21 H22 H23 N M) as (f & O & R & _ & _).
  destruct (agree_from cd cfg s s0 l ms _ f NE F DS E HL N S0 R n Hn) as (zs & Z). exists f, zs. split; [exact O|exact Z].
Qed.
Print Assumptions C47_zip64.

Definition two : list (piece * bytes) := [(piece1, data1); (piece2 true, [x78; x79])].
Lemma two_described : described 0 two [member1; member2].
Proof. cbn [two described]. cbv zeta. pose proof samples_ok as S. inversion S as [|? ? S1 S']; inversion S' as [|? ? S2 _]; subst.
  split; [exact S1|]. do 9 (split; [reflexivity|]). split; [exact S2|]. do 9 (split; [reflexivity|]). exact I.
Qed.
Lemma body_pieces : pieces (map fst two) = body. Proof. reflexivity. Qed.
Example C47_case : exists f zs, fst (file cfg0 (cursor sample)) = Ok f /\ front_to_back toy cfg0 3 (cursor sample) = Ok zs /\ map snd zs = [data1; [x78; x79]] /\
    Forall2 (fun x e => same_view (fst x) e) zs (f_entries f) /\
    forall i x, nth_error zs (N.to_nat i) = Some x -> read_entry toy f i (cursor sample) = Ok (snd x).
Proof.
  refine (C47_classic toy cfg0 (cursor sample) (cursor sample) two [member1; member2] [] 0 (len (members [member1; member2])) comment0 [] _ _ two_described
    _ _ _ _ _ _ _ _ _ _ _ _ 3%nat _); try reflexivity; try discriminate.
  - constructor; [exact piece1_holds|]. constructor; [exact (piece2_holds true)|constructor].
  - apply none_after_ok; [reflexivity|vm_compute; reflexivity].
  - intros q H1 H2. assert (Q : q = len (pieces (map fst two) ++ members [member1; member2] ++ []) - 20) by lia. subst q. revert H1. apply not_at_ok. vm_compute. reflexivity.
  - repeat constructor.
  - split; [reflexivity|]. split; [reflexivity|constructor].
  - cbn. lia.
Qed.
Example C47_case64 : exists f zs, fst (file cfg0 (cursor sample64)) = Ok f /\ front_to_back toy cfg0 3 (cursor sample64) = Ok zs /\ map snd zs = [data1; [x78; x79]] /\
    Forall2 (fun x e => same_view (fst x) e) zs (f_entries f) /\
    forall i x, nth_error zs (N.to_nat i) = Some x -> read_entry toy f i (cursor sample64) = Ok (snd x).
Proof.
  refine (C47_zip64 toy cfg0 (cursor sample64) (cursor sample64) two [member1; member2] [] [] comment0 [] 44 798 46 0 0 2 2 (len (members [member1; member2])) (len body) 0 1
    0 0 0xFFFF 0xFFFF 0xFFFFFFFF 0xFFFFFFFF _ _ two_described
    _ _ _ _ _ _ _ _ _ _ _ _ _ _ _ _ _ _ _ _ _ _ _ _ _ _ _ _ 3%nat _); try reflexivity; try discriminate.
  - constructor; [exact piece1_holds|]. constructor; [exact (piece2_holds true)|constructor].
  - intros q H. assert (G : q <= len sample64 - 25) by (revert q H; apply none_after_ok; [reflexivity|vm_compute; reflexivity]).
    change (s_data (cursor sample64)) with sample64. assert (25 <= len sample64) by (vm_compute; discriminate). change (len comment0) with 3. change (len (@nil byte)) with 0. lia.
  - repeat constructor.
  - split; [reflexivity|]. split; [reflexivity|constructor].
  - cbn. lia.
Qed.

(** Archives this crate wrote: both readers give back what was written. *)
Theorem C47_written_partial cd cfg sched s s0 l : codec_ok cd -> Forall op_good l -> Forall (fun o => dropped o = false) l ->
  let '(xs, r, w) := run_archive cd sched l in
  let d := w_bytes w in
  r = Ok tt -> Forall (fun x => worked (snd x) = true) xs -> unambiguous cd cfg l xs (w_zip64 w) d ->
  Forall (fun x => streamable cd (snd x)) (succeeded false xs) -> succeeded false xs <> [] ->
  s_data s = d -> nofail (s_sched s) -> stands s0 d 0 ->
  forall n, (length (succeeded false xs) < n)%nat ->
  exists f zs, fst (file cfg s) = Ok f /\ front_to_back cd cfg n s0 = Ok zs /\
    Forall2 (fun x e => stored_bytes (en_filename (fst x)) = stored_bytes (en_filename (st_entry e)) /\
      en_compression (fst x) = en_compression (st_entry e) /\ en_date (fst x) = en_date (st_entry e)) zs (f_entries f) /\
    (forall i no64 o data, nth_error (succeeded false xs) (N.to_nat i) = Some (no64, o) -> holds cd o data ->
       (forall it, leaves cd no64 o it -> straight it) ->
       read_entry cd f i s = Ok data /\ option_map snd (nth_error zs (N.to_nat i)) = Some data).
Proof. exact (written_agree cd cfg sched s s0 l). Qed.
Print Assumptions C47_written_partial.

(** Not for every archive that opens: an entry the directory leaves out is still seen front to back ... *)
Definition hidden : bytes :=
  body ++ members [member2] ++ end_record 0 0 1 1 (len (members [member2])) (len body) 0.
Theorem C47_refuted : exists d f zs, mem_new cfg0 d = Ok {| m_data := d; m_file := f |} /\ front_to_back toy cfg0 3 (cursor d) = Ok zs /\
  len zs = 2 /\ len (f_entries f) = 1.
Proof.
  exists hidden.
  assert (H : opened hidden (fun f => len (f_entries f)) = Some 1) by (vm_compute; reflexivity). apply opened_ok in H as (f & H1 & H2).
  assert (G : match front_to_back toy cfg0 3 (cursor hidden) with Ok zs => len zs =? 2 | _ => false end = true) by (vm_compute; reflexivity).
  destruct (front_to_back toy cfg0 3 (cursor hidden)) as [zs|e|p]; [|discriminate G|discriminate G]. apply N.eqb_eq in G. exists f, zs. auto.
Qed.
Print Assumptions C47_refuted.
(** ... and the name in the local header is never compared with that in the directory. *)
Definition member1' : member :=
  {| a_made_by := 0; a_needed := 10; a_flags := 0x0800; a_method := Stored; a_time := 0; a_date := 33;
     a_crc := crc32_spec data1; a_usize := 3; a_csize := 3; a_offset := 0; a_disk := 0;
     a_u64 := false; a_c64 := false; a_o64 := false; a_d64 := false; a_iattr := 0; a_eattr := 0;
     a_name := [x7a; x7a]; a_comment := []; a_before := []; a_after := [] |}.
Definition two_names : bytes :=
  piece_image piece1 ++ members [member1'] ++ end_record 0 0 1 1 (len (members [member1'])) (len (piece_image piece1)) 0.
Theorem C47_refuted_names : exists d f e z, mem_new cfg0 d = Ok {| m_data := d; m_file := f |} /\ f_entries f = [e] /\
  front_to_back toy cfg0 2 (cursor d) = Ok [(z, data1)] /\ mem_read_entry toy {| m_data := d; m_file := f |} 0 = Ok data1 /\
  zs_raw (en_filename (st_entry e)) = [x7a; x7a] /\ zs_raw (en_filename z) = [x61].
Proof.
  exists two_names.
  assert (H : opened two_names (fun f => (map (fun e => zs_raw (en_filename (st_entry e))) (f_entries f), mem_read_entry toy {| m_data := two_names; m_file := f |} 0)) =
    Some ([[x7a; x7a]], Ok data1)) by (vm_compute; reflexivity). apply opened_ok in H as (f & H1 & H2). injection H2 as H2 H3.
  assert (G : match front_to_back toy cfg0 2 (cursor two_names) with Ok [(z, b)] => (zs_raw (en_filename z), b) | _ => ([], []) end = ([x61], data1)) by (vm_compute; reflexivity).
  destruct (front_to_back toy cfg0 2 (cursor two_names)) as [[|[z b] [|? ?]]|e|p]; try discriminate G. injection G as G1 G2.
  destruct (f_entries f) as [|e [|? ?]] eqn:EF; try discriminate H2. injection H2 as H2. exists f, e, z. subst b. split; [exact H1|]. split; [exact EF|].
  split; [reflexivity|]. split; [exact H3|]. split; [exact H2|exact G1].
Qed.
Print Assumptions C47_refuted_names.
Definition outing : list wop :=
  [OpWhole entry1 [x68; x69; x21]; OpStream false entry2 [SWriteAll [x01; x02]; SFlush; SWriteAll [x06]] true; OpComment [x68]].
Definition outing_left : list (bool * wop) :=
  [(false, OpWhole entry1 [x68; x69; x21]); (false, OpStream false entry2 [SWriteAll [x01; x02]; SFlush; SWriteAll [x06]] true)].
Example C47_case_written : codec_ok toy /\ Forall op_good outing /\ Forall (fun o => dropped o = false) outing /\
  Forall (fun x => streamable toy (snd x)) outing_left /\ Forall (fun x => forall it, leaves toy (fst x) (snd x) it -> straight it) outing_left /\
  let '(xs, r, w) := run_archive toy bumpy outing in
  r = Ok tt /\ Forall (fun x => worked (snd x) = true) xs /\ unambiguous toy cfg0 outing xs (w_zip64 w) (w_bytes w) /\ succeeded false xs = outing_left.
Proof.
  split; [exact toy_ok|]. split; [repeat constructor; cbn; discriminate|]. split; [repeat constructor|].
  split; [constructor; [exact I|]; constructor; [discriminate|constructor]|].
  split; [repeat constructor; intros it L; inversion L; subst; intro X; discriminate X|].
  assert (H : let '(xs, r, w) := run_archive toy bumpy outing in r = Ok tt /\ Forall (fun x => worked (snd x) = true) xs /\
    clear_end xs (w_zip64 w) (last_comment outing) (w_bytes w) = true /\ succeeded false xs = outing_left).
  { vm_compute. split; [reflexivity|]. split; [repeat constructor|]. split; reflexivity. }
  destruct (run_archive toy bumpy outing) as [[xs r] w]. destruct H as (H1 & H2 & H3 & H4). split; [exact H1|]. split; [exact H2|]. split; [|exact H4].
  now apply clear_end_ok.
Qed.

(** * C48. The size the directory tells is the length of the content. *)
Theorem C48_written cd cfg sched s l : codec_ok cd -> Forall op_good l ->
  let '(xs, r, w) := run_archive cd sched l in
  let d := w_bytes w in
  r = Ok tt -> unambiguous cd cfg l xs (w_zip64 w) d -> s_data s = d -> nofail (s_sched s) ->
  exists f, fst (file cfg s) = Ok f /\
    forall i no64 o data, nth_error (succeeded false xs) (N.to_nat i) = Some (no64, o) -> holds cd o data ->
      size_claimed o data -> (forall it, leaves cd no64 o it -> straight it) ->
      exists e, entry_at f i = Some e /\ read_entry cd f i s = Ok data /\ en_uncompressed_size (st_entry e) = len data.
Proof. exact (size_told cd cfg sched s l). Qed.
Print Assumptions C48_written.
Example C48_case : codec_ok toy /\ Forall op_good history /\
  let '(xs, r, w) := run_archive toy bumpy history in
  r = Ok tt /\ unambiguous toy cfg0 history xs (w_zip64 w) (w_bytes w) /\
  nth_error (succeeded false xs) 1 = Some (false, OpStream false entry2 [SWriteAll [x01; x02; x03; x04; x05]; SFlush; SWriteAll []; SWriteAll [x06]] true).
Proof.
  split; [exact toy_ok|]. split; [exact history_good|]. pose proof history_clear as H.
  assert (R : let '(xs, r, w) := run_archive toy bumpy history in r = Ok tt /\
    nth_error (succeeded false xs) 1 = Some (false, OpStream false entry2 [SWriteAll [x01; x02; x03; x04; x05]; SFlush; SWriteAll []; SWriteAll [x06]] true)).
  { vm_compute. split; reflexivity. }
  destruct (run_archive toy bumpy history) as [[xs r] w]. destruct R as [R1 R2]. exact (conj R1 (conj H R2)).
Qed.
(** Not for every archive: the size is never compared with the content, not even when the CRC is checked ... *)
Definition boast : member :=
  {| a_made_by := 0; a_needed := 10; a_flags := 0x0800; a_method := Stored; a_time := 0; a_date := 33;
     a_crc := crc32_spec data1; a_usize := 1000; a_csize := 3; a_offset := 0; a_disk := 0;
     a_u64 := false; a_c64 := false; a_o64 := false; a_d64 := false; a_iattr := 0; a_eattr := 0;
     a_name := [x61]; a_comment := []; a_before := []; a_after := [] |}.
Definition boasting : bytes :=
  piece_image piece1 ++ members [boast] ++ end_record 0 0 1 1 (len (members [boast])) (len (piece_image piece1)) 0.
Theorem C48_refuted : exists d f e, mem_new cfg0 d = Ok {| m_data := d; m_file := f |} /\ entry_at f 0 = Some e /\
  mem_read_entry toy {| m_data := d; m_file := f |} 0 = Ok data1 /\ en_uncompressed_size (st_entry e) = 1000.
Proof.
  exists boasting.
  assert (H : opened boasting (fun f => (option_map (fun e => en_uncompressed_size (st_entry e)) (entry_at f 0), mem_read_entry toy {| m_data := boasting; m_file := f |} 0)) =
    Some (Some 1000, Ok data1)) by (vm_compute; reflexivity). apply opened_ok in H as (f & H1 & H2). injection H2 as H2 H3.
  destruct (entry_at f 0) as [e|] eqn:E; [|discriminate H2]. injection H2 as H2. exists f, e. auto.
Qed.
Print Assumptions C48_refuted.
Definition lying : zentry :=
  {| en_filename := utf8 [x61]; en_compression := Deflate; en_crc32 := crc32_spec [x78; x79]; en_uncompressed_size := 77; en_compressed_size := 0;
     en_attr_compat := Unix; en_date := en_date entry1; en_iattr := 0; en_eattr := 0; en_extra := []; en_comment := utf8 []; en_data_descriptor := false; en_level := en_level entry1 |}.
(** ... nor does the writer look at the size it is given with compressed data. *)
Theorem C48_refuted_written : exists l data, let '(xs, r, w) := run_archive toy [] l in
  r = Ok tt /\ Forall (fun x => worked (snd x) = true) xs /\ exists f e, mem_new cfg0 (w_bytes w) = Ok {| m_data := w_bytes w; m_file := f |} /\ entry_at f 0 = Some e /\
  mem_read_entry toy {| m_data := w_bytes w; m_file := f |} 0 = Ok data /\ en_uncompressed_size (st_entry e) <> len data.
Proof.
  exists [OpWholePre lying [x01; x78; x01; x79; x00]], [x78; x79].
  assert (H : let '(xs, r, w) := run_archive toy [] [OpWholePre lying [x01; x78; x01; x79; x00]] in
    r = Ok tt /\ Forall (fun x => worked (snd x) = true) xs /\
    opened (w_bytes w) (fun f => (option_map (fun e => en_uncompressed_size (st_entry e)) (entry_at f 0), mem_read_entry toy {| m_data := w_bytes w; m_file := f |} 0)) =
    Some (Some 77, Ok [x78; x79])).
  { vm_compute. split; [reflexivity|]. split; [repeat constructor|reflexivity]. }
  destruct (run_archive toy [] [OpWholePre lying [x01; x78; x01; x79; x00]]) as [[xs r] w]. destruct H as (R & W & H).
  apply opened_ok in H as (f & H1 & H2). injection H2 as H2 H3.
  split; [exact R|]. split; [exact W|].
  destruct (entry_at f 0) as [e|] eqn:E; [|discriminate H2]. injection H2 as H2. exists f, e. split; [exact H1|]. split; [exact E|]. split; [exact H3|].
  rewrite H2. intro X. discriminate X.
Qed.
Print Assumptions C48_refuted_written.
