(** Property theorems: archives under a strict check. *)
From Verif Require Import Base SpecFormat SpecCrc SpecUtf8 SpecArchive SpecRead SpecWrite SpecStrict ZString ZDate Headers ExtraField Entry
  IO Reader EntryReader Writer Samples WriteSamples StrictProofs SpecAccept SpecRepack SeenProofs.

(** * C62. A strict check finds nothing wrong with an archive all of whose calls succeeded, if nothing of ZIP64 was put down
    for its entries (the end may be ZIP64). *)
Theorem C62_strict_partial cd sched l : codec_ok cd -> Forall op_good l -> Forall (fun o => dropped o = false) l ->
  let '(xs, r, w) := run_archive cd sched l in
  r = Ok tt -> Forall (fun x => worked (snd x) = true) xs -> len (w_bytes w) <= 0xFFFFFFFF -> end_clear (w_zip64 w) (last_comment l) (w_bytes w) ->
  Forall (checkable cd) (succeeded false xs) -> strict cd (w_bytes w) = true.
Proof. exact (strict_ok cd sched l). Qed.
Print Assumptions C62_strict_partial.
(** Among such calls it fails exactly for a directory name without a version for it. *)
Theorem C62_exact_partial cd sched l : codec_ok cd -> Forall op_good l -> Forall (fun o => dropped o = false) l ->
  let '(xs, r, w) := run_archive cd sched l in
  r = Ok tt -> Forall (fun x => worked (snd x) = true) xs -> len (w_bytes w) <= 0xFFFFFFFF -> end_clear (w_zip64 w) (last_comment l) (w_bytes w) ->
  Forall (soundly cd) (succeeded false xs) -> (strict cd (w_bytes w) = true <-> Forall tidy (succeeded false xs)).
Proof. exact (strict_exact cd sched l). Qed.
Print Assumptions C62_exact_partial.
(** What is seen there is what the calls were given, call by call. *)
Theorem C62_seen_partial cd sched l : codec_ok cd -> Forall op_good l -> Forall (fun o => dropped o = false) l ->
  let '(xs, r, w) := run_archive cd sched l in
  r = Ok tt -> Forall (fun x => worked (snd x) = true) xs -> len (w_bytes w) <= 0xFFFFFFFF -> end_clear (w_zip64 w) (last_comment l) (w_bytes w) ->
  Forall (soundly cd) (succeeded false xs) ->
  exists vs, sights cd (w_bytes w) = Some vs /\ Forall2 (fun x v => seen_as cd (snd x) v) (succeeded false xs) vs.
Proof. exact (strict_seen cd sched l). Qed.
Print Assumptions C62_seen_partial.
Definition folder : zentry := mk_entry (utf8 [x64; x2f]) (utf8 []) Stored [].
Definition packed (l : bytes) (n : N) : zentry :=
  {| en_filename := utf8 [x70]; en_compression := Deflate; en_level := LDefault; en_crc32 := crc32_spec l; en_uncompressed_size := len l; en_compressed_size := n;
     en_attr_compat := Unix; en_date := {| zd_date := 33; zd_time := 7 |}; en_iattr := 0; en_eattr := 0; en_extra := []; en_comment := utf8 []; en_data_descriptor := false |}.
Definition checked : list wop :=
  [OpForceZip64; OpWhole folder []; OpWhole entry1 [x68; x69; x21]; OpComment [x68; x65; x79]; OpWhole entry2 [x01; x02];
   OpForceNoZip64; OpStream false entry1 [SWriteAll [x68]; SFlush; SWriteAll [x69; x6a]] true; OpWholePre (packed [x55] 3) [x01; x55; x00]].
Example C62_case : codec_ok toy /\ Forall op_good checked /\ Forall (fun o => dropped o = false) checked /\
  let '(xs, r, w) := run_archive toy bumpy checked in
  r = Ok tt /\ Forall (fun x => worked (snd x) = true) xs /\ len (w_bytes w) <= 0xFFFFFFFF /\ w_zip64 w = true /\
  end_clear (w_zip64 w) (last_comment checked) (w_bytes w) /\ Forall (checkable toy) (succeeded false xs) /\ len (succeeded false xs) = 5.
Proof.
  split; [exact toy_ok|]. split; [repeat constructor; cbn; discriminate|]. split; [repeat constructor|].
  assert (H : let '(xs, r, w) := run_archive toy bumpy checked in
    r = Ok tt /\ Forall (fun x => worked (snd x) = true) xs /\ w_zip64 w = true /\ clear_end xs (w_zip64 w) (last_comment checked) (w_bytes w) = true /\
    (len (w_bytes w) <=? 0xFFFFFFFF) = true /\
    succeeded false xs = [(false, OpWhole folder []); (false, OpWhole entry1 [x68; x69; x21]); (false, OpWhole entry2 [x01; x02]);
      (true, OpStream false entry1 [SWriteAll [x68]; SFlush; SWriteAll [x69; x6a]] true); (true, OpWholePre (packed [x55] 3) [x01; x55; x00])]).
  { vm_compute. split; [reflexivity|]. split; [repeat constructor|]. repeat split; reflexivity. }
  destruct (run_archive toy bumpy checked) as [[xs r] w]. destruct H as (H1 & H2 & H3 & H4 & H5 & H6). apply N.leb_le in H5.
  pose proof (clear_end_ok toy checked _ _ _ H4) as (_ & _ & _ & E & _).
  split; [exact H1|]. split; [exact H2|]. split; [exact H5|]. split; [exact H3|]. split; [exact E|]. rewrite H6. split; [|reflexivity].
  constructor; [|constructor; [|constructor; [|constructor; [|constructor; [|constructor]]]]]; (split; [cbn [snd op_entry]|cbn [fst snd]]).
  - intros _. left. split; [reflexivity|]. now exists [x64].
  - cbn. lia.
  - discriminate.
  - cbn. lia.
  - discriminate.
  - cbn. lia.
  - discriminate.
  - split; [reflexivity|]. split; [reflexivity|]. split; [|discriminate]. intros it LV _.
    inversion LV as [| |e body z off C|]; subst. unfold i_csize. cbn [i_data i_usize]. inversion C; subst; [reflexivity|easy].
  - discriminate.
  - split; [|cbn; lia]. exists [x55]. split; [reflexivity|]. split; reflexivity.
Qed.
(** Not every one: an entry that was simply streamed has a ZIP64 field in its local header, yet the version of one that needs
    no ZIP64 and a descriptor with 32-bit placeholders for its sizes. *)
Theorem C62_refuted : exists l, Forall op_good l /\ Forall (fun o => dropped o = false) l /\
  let '(xs, r, w) := run_archive toy [] l in
  r = Ok tt /\ Forall (fun x => worked (snd x) = true) xs /\ len (succeeded false xs) = 1 /\ unambiguous toy cfg0 l xs (w_zip64 w) (w_bytes w) /\
  strict toy (w_bytes w) = false.
Proof.
  exists [OpStream false entry1 [SWriteAll [x68; x69]] true]. split; [repeat constructor; cbn; discriminate|]. split; [repeat constructor|].
  assert (H : let '(xs, r, w) := run_archive toy [] [OpStream false entry1 [SWriteAll [x68; x69]] true] in
    r = Ok tt /\ Forall (fun x => worked (snd x) = true) xs /\ len (succeeded false xs) = 1 /\
    clear_end xs (w_zip64 w) (last_comment [OpStream false entry1 [SWriteAll [x68; x69]] true]) (w_bytes w) = true /\ strict toy (w_bytes w) = false).
  { vm_compute. split; [reflexivity|]. split; [repeat constructor|]. repeat split; reflexivity. }
  destruct (run_archive toy [] [OpStream false entry1 [SWriteAll [x68; x69]] true]) as [[xs r] w]. destruct H as (H1 & H2 & H3 & H4 & H5).
  split; [exact H1|]. split; [exact H2|]. split; [exact H3|]. split; [now apply clear_end_ok|exact H5].
Qed.
Print Assumptions C62_refuted.
(** The version alone is wrong there, and so it is for a directory whose name is not declared as UTF-8: both announce 1.0. *)
Definition announced (d : bytes) : N := value (firstn 2 (skipn 4 d)).
Definition raw_folder : zentry := mk_entry {| zs_enc := ERaw; zs_raw := [x82; x2f]; zs_alt := None |} (utf8 []) Stored [].
Theorem C62_refuted_version :
  (announced (w_bytes (snd (run_archive toy [] [OpStream false entry1 [SWriteAll [x68; x69]] true]))) = 10 /\ least_version 0 false true = 45) /\
  (announced (w_bytes (snd (run_archive toy [] [OpWhole raw_folder []]))) = 10 /\ least_version 0 true false = 20 /\
   strict toy (w_bytes (snd (run_archive toy [] [OpWhole raw_folder []]))) = false).
Proof. vm_compute. repeat split; reflexivity. Qed.
Print Assumptions C62_refuted_version.
(** The check does check: an archive with a byte changed in a name, in a size, in the data, or with a byte too many in front
    of the directory fails it. *)
Definition sample : bytes := w_bytes (snd (run_archive toy [] [OpWhole entry1 [x68; x69; x21]; OpWhole folder []])).
Definition altered (p : nat) : bytes := firstn p sample ++ [xff] ++ skipn (S p) sample.
Example C62_checks : strict toy sample = true /\ strict toy (altered 30) = false /\ strict toy (altered 18) = false /\ strict toy (altered 38) = false /\
  strict toy (firstn 40 sample ++ [x00] ++ skipn 40 sample) = false.
Proof. vm_compute. repeat split; reflexivity. Qed.
