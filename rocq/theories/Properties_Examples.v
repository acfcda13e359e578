(** Property theorems: the compression example and the upload example. *)
From Verif Require Import Base BaseFacts SpecFormat SpecCrc SpecUtf8 SpecArchive SpecRead SpecWrite SpecExtract SpecBack ZString ZDate Headers ExtraField Entry IO IOFacts Reader
  EntryReader Writer Extract ExtractProofs EntryProofs Samples WriteSamples SpecOrdinary Properties_Ordinary Properties_Extract BackProofs Properties_Back Utf8 Utf8Facts Inflate InflateFacts
  Compress SpecCompress CompressProofs Multipart SpecMultipart MultipartProofs SpecSpells FormProofs SpecDirectory CompressBack.
From Verif Require CommentlessProofs.

(** * C70. The compression example puts away every file of a directory, and extraction brings them back. *)
(** If it ends well, the archive is the one made of the files below the directory, each once, under its path from there. *)
Theorem C70_kept cd sched d fuel args dir w : honest d -> called_for d args dir -> d_is_dir d dir = true -> below_root dir ->
  run cd sched d fuel args = (Done tt, Some w) ->
  exists xs, lists (fun x => file_with d dir (fst x) (snd x)) xs /\ Forall (fun x => SpecUtf8.is_utf8 (spelled (fst x))) xs /\
    run_archive cd sched (map put xs) = (map (fun o => (o, Ok tt)) (map put xs), Ok tt, w).
Proof. exact (compress_gives cd sched d fuel args dir w). Qed.
Print Assumptions C70_kept.
(** It ends well for a directory with [n] directories in it that can be read, on a sink without faults. *)
Theorem C70_works cd sched d fuel args dir n : enc_takes cd -> obliging sched -> honest d -> called_for d args dir -> d_is_dir d dir = true -> below_root dir ->
  orderly d dir n -> (n <= fuel)%nat -> exists w, run cd sched d fuel args = (Done tt, Some w).
Proof. exact (compress_works cd sched d fuel args dir n). Qed.
Print Assumptions C70_works.
(** The test for lying below a directory. *)
Theorem C70_below l p : starts_with l p = true <-> exists r, l = p ++ r.
Proof. exact (starts_iff p l). Qed.
Print Assumptions C70_below.
(** A single file goes in under the last part of its path. *)
Theorem C70_single cd sched d fuel args input w : called_for d args input -> d_is_dir d input = false ->
  run cd sched d fuel args = (Done tt, Some w) ->
  exists a n b, walks input (a ++ [n]) /\ n <> [x2e; x2e] /\ SpecUtf8.is_utf8 n /\ d_read d input = Some b /\
    let o := OpWhole (entry_new (zs_from_string n) Deflate) b in
    run_archive cd sched [o] = ([(o, Ok tt)], Ok tt, w).
Proof. exact (compress_file cd sched d fuel args input w). Qed.
Print Assumptions C70_single.
(** Compressed, and extracted into an empty directory: the same files, and no others - unless the number of files, the length of the
    directory or its offset spells the signature of the end record, in which case the archive does not even open. *)
Theorem C70_back_partial cd cfg sched s d fuel args dir n sanitize t out : codec_ok cd -> obliging sched -> honest d -> called_for d args dir -> d_is_dir d dir = true ->
  below_root dir -> orderly d dir n -> (n <= fuel)%nat -> fit_to_extract sanitize d dir ->
  plain_names sanitize -> sanitize [] = [] -> fair out t ->
  exists w, run cd sched d fuel args = (Done tt, Some w) /\
  (len (w_bytes w) < 0x10000000000000000 -> s_data s = w_bytes w -> nofail (s_sched s) ->
   exists ps body records, lists (a_file d dir) ps /\ w_bytes w = body ++ records ++ archive_end (w_zip64 w) (len ps) (len records) (len body) [] /\
   let '(r, h, _) := unzip_file cd cfg sanitize t out s in
   (spelled_by (len ps) (len records) (len body) -> r = Panic PUnwrap /\ h = []) /\
   (~ spelled_by (len ps) (len records) (len body) ->
    (w_zip64 w = false -> forall q, found_at (le 4 0x07064b50) (w_bytes w) q -> q + 42 <> len (w_bytes w)) ->
    no_placeholder cd d dir (w_bytes w) -> len ps * entry_mem_size cfg <= 0x7FFFFFFFFFFFFFFF ->
    r = Ok tt /\ lists (fun y => exists p, file_with d dir p (snd y) /\ fst y = below out p) (filled h) /\ created h = map fst (filled h))).
Proof. exact (compress_back cd cfg sched s d fuel args dir n sanitize t out). Qed.
Print Assumptions C70_back_partial.
(** Few files and an archive below 80 MiB spell nothing. *)
Theorem C70_small n size off : n < 0x4b50 -> size < 0x5000000 -> off < 0x5000000 -> ~ spelled_by n size off.
Proof. exact (small_unspelled n size off). Qed.
Print Assumptions C70_small.

(** ** A small disk *)
Fixpoint at_path {A} (l : list (bytes * A)) (p : bytes) : option A :=
  match l with [] => None | (q, a) :: l => if bytes_eqb q p then Some a else at_path l p end.
Definition holding (dirs : list (bytes * list bytes)) (fs : list (bytes * bytes)) : Compress.disk :=
  {| d_canonical := Some; d_creates _ := true;
     d_exists p := match at_path dirs p, at_path fs p with None, None => false | _, _ => true end;
     d_is_dir p := match at_path dirs p with Some _ => true | None => false end;
     d_list := at_path dirs; d_read := at_path fs |}.
Lemma at_path_in {A} (l : list (bytes * A)) p a : at_path l p = Some a -> exists q, In (q, a) l.
Proof.
  induction l as [|[q b] l IH]; [discriminate|]. cbn [at_path]. destruct (bytes_eqb q p); [intros E; injection E as ->; exists q; now left|].
  intros E. destruct (IH E) as (r & I). exists r. now right.
Qed.
Lemma holding_honest dirs fs : Forall (fun x => NoDup (snd x) /\ Forall a_name (snd x)) dirs -> honest (holding dirs fs).
Proof. intros F p l E. apply at_path_in in E as (q & I). rewrite Forall_forall in F. exact (F _ I). Qed.
(** "/h" with the file "a", the directory "b" with files "c" and "d" ("d" is empty), and the empty directory "e" *)
Definition home : bytes := [x2f; x68].
Definition home_disk : Compress.disk :=
  holding [([x2f; x68], [[x62]; [x61]; [x65]]); ([x2f; x68; x2f; x62], [[x64]; [x63]]); ([x2f; x68; x2f; x65], [])]
          [([x2f; x68; x2f; x61], [x01; x02; x03]); ([x2f; x68; x2f; x62; x2f; x63], [x09]); ([x2f; x68; x2f; x62; x2f; x64], [])].
Definition home_args : list bytes := [home; [x6f]].
Lemma home_honest : honest home_disk.
Proof.
  apply holding_honest. repeat (constructor; [cbn [snd]; split; [repeat (constructor; [cbn [In]; intros X; decompose [or] X; try discriminate; assumption|]); constructor|
    repeat (constructor; [split; [discriminate|cbn [In]; intros X; decompose [or] X; try discriminate; assumption]|]); constructor]|]). constructor.
Qed.
Lemma home_called : called_for home_disk home_args home.
Proof. exists home, [x6f], []. repeat split; reflexivity. Qed.
Lemma home_all p : lies home_disk home p -> In p [[]; [[x62]]; [[x61]]; [[x65]]; [[x62]; [x64]]; [[x62]; [x63]]].
Proof.
  induction 1 as [|p l n L IH D E I]; [now left|].
  repeat (destruct IH as [<-|IH]; [first [vm_compute in E; discriminate E | vm_compute in E; injection E as <-;
    repeat (destruct I as [<-|I]; [cbn [app In]; tauto|]); elim I]|]). elim IH.
Qed.
Lemma home_files p : a_file home_disk home p -> In p [[[x61]]; [[x62]; [x64]]; [[x62]; [x63]]].
Proof.
  intros (L & NE & D). apply home_all in L. repeat (destruct L as [<-|L]; [first [now elim NE | vm_compute in D; discriminate D | cbn [In]; tauto]|]). elim L.
Qed.
Lemma home_folders p : a_folder home_disk home p -> In p [[]; [[x62]]; [[x65]]].
Proof.
  intros (L & D). apply home_all in L. repeat (destruct L as [<-|L]; [first [cbn [In]; tauto | destruct D as [D|D]; [discriminate D|vm_compute in D; discriminate D]]|]). elim L.
Qed.
Lemma text l : utf8_valid l = true -> SpecUtf8.is_utf8 l.
Proof. apply utf8_valid_iff. Qed.
Lemma home_orderly : orderly home_disk home 3.
Proof.
  split; [now apply text|]. split; [|split].
  - exists [[]; [[x62]]; [[x65]]]. split; [reflexivity|exact home_folders].
  - intros p A. apply home_folders in A. repeat (destruct A as [<-|A]; [vm_compute; discriminate|]). elim A.
  - intros p A. apply home_files in A.
    repeat (destruct A as [<-|A]; [eexists; split; [reflexivity|]; split; [vm_compute; reflexivity|]; split; [now apply text|vm_compute; discriminate]|]). elim A.
Qed.
Lemma home_fit : fit_to_extract strip home_disk home.
Proof.
  assert (PN : forall b, b2n b = 0x61 \/ b2n b = 0x62 \/ b2n b = 0x63 \/ b2n b = 0x64 -> plain_name strip [b]).
  { intros b B. destruct b; vm_compute in B; try (repeat destruct B as [B|B]; discriminate B); (split; [discriminate|]); (split; [intros [X|[]]; discriminate X|]); (split; [intros [X|[]]; discriminate X|]); reflexivity. }
  intros p A. apply home_files in A. repeat (destruct A as [<-|A]; [repeat constructor; apply PN; cbn; tauto|]). elim A.
Qed.
Example C70_case : codec_ok flate /\ obliging bumpy /\ honest home_disk /\ called_for home_disk home_args home /\ d_is_dir home_disk home = true /\ below_root home /\
  orderly home_disk home 3 /\ fit_to_extract strip home_disk home /\ plain_names strip /\ strip [] = [] /\ fair here (Properties_Back.disk here) /\
  match run flate bumpy home_disk 3 home_args with
  | (Done _, Some w) =>
    len (w_bytes w) = 293 /\
    let '(r, h, _) := unzip_file flate cfg0 strip (Properties_Back.disk here) here (cursor (w_bytes w)) in
    r = Ok tt /\
    filled h = [(here ++ [x2f; x61], [x01; x02; x03]); (here ++ [x2f; x62; x2f; x64], []); (here ++ [x2f; x62; x2f; x63], [x09])]
  | _ => False
  end.
Proof.
  split; [exact flate_ok|]. split; [repeat constructor; discriminate|]. split; [exact home_honest|]. split; [exact home_called|]. split; [reflexivity|].
  split; [split; [discriminate|vm_compute; discriminate]|]. split; [exact home_orderly|]. split; [exact home_fit|]. split; [exact strip_plain|]. split; [reflexivity|].
  split; [exact (disk_fair here)|]. vm_compute. repeat split; reflexivity.
Qed.
(** one file *)
Example C70_one : called_for home_disk [[x2f; x68; x2f; x62; x2f; x63]; [x6f]] [x2f; x68; x2f; x62; x2f; x63] /\
  d_is_dir home_disk [x2f; x68; x2f; x62; x2f; x63] = false /\
  match run flate bumpy home_disk 3 [[x2f; x68; x2f; x62; x2f; x63]; [x6f]] with
  | (Done _, Some w) => map (fun e => zs_raw (en_filename (st_entry e))) match fst (file cfg0 (cursor (w_bytes w))) with Ok f => f_entries f | _ => [] end = [[x63]]
  | _ => False
  end.
Proof. split; [eexists _, _, _; repeat split; reflexivity|]. split; [reflexivity|]. vm_compute. reflexivity. Qed.

(** The directory must not be the root: there the first letter of every path is lost, and a path that starts with a letter of
    more than one byte makes the example panic. *)
Definition root : bytes := [x2f].
Definition root_disk (name : bytes) : Compress.disk := holding [(root, [name])] [(root ++ name, [x01])].
Theorem C70_root_refuted : exists name, honest (root_disk name) /\ called_for (root_disk name) [root; [x6f]] root /\ d_is_dir (root_disk name) root = true /\
  file_with (root_disk name) root [name] [x01] /\ SpecUtf8.is_utf8 name /\
  match run flate [] (root_disk name) 1 [root; [x6f]] with
  | (Done _, Some w) => map (fun e => zs_raw (en_filename (st_entry e))) match fst (file cfg0 (cursor (w_bytes w))) with Ok f => f_entries f | _ => [] end = [drop 1 name]
  | _ => False
  end.
Proof.
  exists [x61; x62]. split; [|split; [|split; [|split; [|split]]]].
  - apply holding_honest. constructor; [|constructor]. cbn [snd]. split; [constructor; [intros []|constructor]|]. constructor; [|constructor]. split; [discriminate|]. intros [X|[X|[]]]; discriminate X.
  - exists root, [x6f], []. repeat split; reflexivity.
  - reflexivity.
  - split; [|reflexivity]. split; [|split; [discriminate|reflexivity]]. apply (lies_in _ _ [] [[x61; x62]]); [constructor|now left|reflexivity|now left].
  - now apply text.
  - vm_compute. reflexivity.
Qed.
Print Assumptions C70_root_refuted.
Theorem C70_root_panics : exists name, honest (root_disk name) /\ called_for (root_disk name) [root; [x6f]] root /\ d_is_dir (root_disk name) root = true /\
  file_with (root_disk name) root [name] [x01] /\ SpecUtf8.is_utf8 name /\ fst (run flate [] (root_disk name) 1 [root; [x6f]]) = Broke PSlice.
Proof.
  exists [xc3; xa9]. split; [|split; [|split; [|split; [|split]]]].
  - apply holding_honest. constructor; [|constructor]. cbn [snd]. split; [constructor; [intros []|constructor]|]. constructor; [|constructor]. split; [discriminate|]. intros [X|[X|[]]]; discriminate X.
  - exists root, [x6f], []. repeat split; reflexivity.
  - reflexivity.
  - split; [|reflexivity]. split; [|split; [discriminate|reflexivity]]. apply (lies_in _ _ [] [[xc3; xa9]]); [constructor|now left|reflexivity|now left].
  - now apply text.
  - vm_compute. reflexivity.
Qed.
Print Assumptions C70_root_panics.

(** * C71. The upload example stores the parts of a form. *)
(** If it ends well, every part arrived whole and the archive is made of them, in order. *)
Theorem C71_kept cd sched sanitize uuid creates shuts l w : create_archive cd sched sanitize uuid creates shuts l = (Done tt, Some w) ->
  exists ys, l = received ys /\ run_archive cd sched (deposits sanitize uuid 0 ys) = (map (fun o => (o, Ok tt)) (deposits sanitize uuid 0 ys), Ok tt, w).
Proof. exact (kept cd sched sanitize uuid creates shuts l w). Qed.
Print Assumptions C71_kept.
(** On a sink without faults it ends well if every part arrives whole, and otherwise with an error; it panics only if the file
    cannot be shut. *)
Theorem C71_outcome cd sched sanitize uuid creates shuts l : enc_takes cd -> obliging sched -> good_names sanitize uuid -> holdings l < 0x10000000000000000 ->
  let '(r, w) := create_archive cd sched sanitize uuid creates shuts l in
  (creates = false -> r = Bail /\ w = None) /\
  (creates = true -> (forall ys, l <> received ys) -> r = Bail) /\
  (creates = true -> (exists ys, l = received ys) -> r = if shuts then Done tt else Broke PUnwrap).
Proof. exact (form_outcome cd sched sanitize uuid creates shuts l). Qed.
Print Assumptions C71_outcome.
(** The archive opens and gives each part its name and its bytes, unless the number of the parts, the length of the directory and its place
    spell the signature of the end record. *)
Theorem C71_found_partial cd cfg sched sanitize uuid s l w : codec_ok cd -> good_names sanitize uuid -> holdings l < 0x10000000000000000 ->
  create_archive cd sched sanitize uuid true true l = (Done tt, Some w) ->
  len (w_bytes w) < 0x10000000000000000 -> s_data s = w_bytes w -> nofail (s_sched s) ->
  exists ys, l = received ys /\
    let size := parts_directory sanitize uuid 0 ys in
    (spelled_by (len ys) size (len (w_bytes w) - size - 98) -> fst (file cfg s) = Err (UpstreamReadError UnexpectedEof)) /\
    (~ spelled_by (len ys) size (len (w_bytes w) - size - 98) -> len ys * entry_mem_size cfg <= 0x7FFFFFFFFFFFFFFF ->
     exists f, fst (file cfg s) = Ok f /\ len (f_entries f) = len ys /\
       forall i y, nth_error ys (N.to_nat i) = Some y ->
         read_entry cd f i s = Ok (concat (snd y)) /\
         exists e, entry_at f i = Some e /\ zs_as_str (en_filename (st_entry e)) = Ok (known_as sanitize uuid i y)).
Proof. exact (form_read cd cfg sched sanitize uuid s l w). Qed.
Print Assumptions C71_found_partial.
(** A sanitizer that keeps up to 100 letters, and made-up names of eight digits. *)
Definition letters (n : bytes) : bytes := take 100 (filter (fun b => (0x61 <=? b2n b) && (b2n b <=? 0x7a)) n).
Definition digits (k : N) : bytes := map (fun i => n2b (0x30 + (k / 2 ^ i) mod 2)) [7; 6; 5; 4; 3; 2; 1; 0].
Lemma ascii_text l : Forall (fun b => b2n b < 0x80) l -> SpecUtf8.is_utf8 l.
Proof.
  intros F. apply utf8_valid_iff. induction F as [|b l H F IH]; [reflexivity|]. cbn [utf8_valid]. replace (b2n b <? 0x80) with true by lia. exact IH.
Qed.
Lemma letters_in n b : In b (letters n) -> 0x61 <= b2n b <= 0x7a.
Proof.
  unfold letters. rewrite take_firstn. intros I. assert (J : In b (filter (fun b => (0x61 <=? b2n b) && (b2n b <=? 0x7a)) n)).
  { rewrite <- (firstn_skipn (N.to_nat 100) (filter _ n)). apply in_app_iff. now left. }
  apply filter_In in J as [_ J]. lia.
Qed.
Lemma digits_in k b : In b (digits k) -> b2n b = 0x30 \/ b2n b = 0x31.
Proof.
  unfold digits. rewrite in_map_iff. intros (i & <- & _). assert (X : (k / 2 ^ i) mod 2 = 0 \/ (k / 2 ^ i) mod 2 = 1) by (pose proof (N.mod_lt (k / 2 ^ i) 2 ltac:(discriminate)) as L; destruct ((k / 2 ^ i) mod 2) as [|[p|p|]]; [now left|lia|lia|now right]).
  destruct X as [-> | ->]; [now left|now right].
Qed.
Lemma good_letters : good_names letters digits.
Proof.
  split.
  - intros n. split.
    + apply ascii_text, Forall_forall. intros b I. apply letters_in in I. lia.
    + unfold letters. rewrite len_take. lia.
  - intros k. split; [|vm_compute; discriminate]. apply ascii_text, Forall_forall. intros b I. apply digits_in in I. lia.
Qed.
(** a form with "a.txt" in two chunks and a part without a name *)
Definition form : list (option bytes * list bytes) := [(Some [x61; x2e; x74; x78; x74], [[x01; x02]; [x03]]); (None, [[x04]])].
Example C71_case : codec_ok flate /\ good_names letters digits /\ holdings (received form) < 0x10000000000000000 /\
  match create_archive flate bumpy letters digits true true (received form) with
  | (Done _, Some w) =>
    len (w_bytes w) < 0x10000000000000000 /\
    (let size := parts_directory letters digits 0 form in ~ spelled_by (len form) size (len (w_bytes w) - size - 98)) /\ len form * entry_mem_size cfg0 <= 0x7FFFFFFFFFFFFFFF /\
    match fst (file cfg0 (cursor (w_bytes w))) with
    | Ok f => map (fun e => zs_raw (en_filename (st_entry e))) (f_entries f) = [[x61; x74; x78; x74]; digits 1] /\
              read_entry flate f 0 (cursor (w_bytes w)) = Ok [x01; x02; x03] /\ read_entry flate f 1 (cursor (w_bytes w)) = Ok [x04]
    | _ => False
    end
  | _ => False
  end.
Proof.
  split; [exact flate_ok|]. split; [exact good_letters|]. split; [vm_compute; reflexivity|].
  vm_compute. split; [reflexivity|]. split; [intuition discriminate|]. split; [discriminate|]. repeat split; reflexivity.
Qed.
(** A form of 19280 files, 5029 of them with names of five letters and the others of four: everything works, and the archive cannot be read. *)
Definition flood : list (option bytes * list bytes) :=
  repeat (Some [x61; x62; x63; x64; x65], []) (N.to_nat 5029) ++ repeat (Some [x61; x62; x63; x64], []) (N.to_nat 14251) ++ [].
Lemma flood_size : parts_directory letters digits 0 flood = 1508869.
Proof. unfold flood. rewrite !parts_repeat, !N2Nat.id. reflexivity. Qed.
Lemma flood_len : len flood = 0x4b50.
Proof. unfold flood. rewrite !len_app, !CommentlessProofs.len_repeat, !N2Nat.id. reflexivity. Qed.
Theorem C71_refuted : codec_ok toy /\ good_names letters digits /\ exists w, create_archive toy [] letters digits true true (received flood) = (Done tt, Some w) /\
  forall cfg s, s_data s = w_bytes w -> nofail (s_sched s) -> fst (file cfg s) = Err (UpstreamReadError UnexpectedEof).
Proof.
  split; [exact toy_ok|]. split; [exact good_letters|].
  assert (H : holdings (received flood) = 0). { unfold flood. rewrite !received_app, !holdings_app, !holdings_bare. reflexivity. }
  destruct (form_small toy letters digits flood 1) as (w & CA & L).
  - exact (proj1 toy_ok).
  - exact good_letters.
  - rewrite H. reflexivity.
  - rewrite flood_len. reflexivity.
  - rewrite flood_size. reflexivity.
  - intros y z I C. assert (E : snd y = []).
    { unfold flood in I. rewrite !in_app_iff in I. destruct I as [I|[I|[]]]; apply repeat_spec in I; now subst. }
    rewrite E in C. change (fed_bytes (map SWriteAll [])) with (@nil byte) in C. inversion C as [|lv ? out st _ _ R]; subst; [discriminate|]. rewrite len_app.
    assert (Z : forall st0 fed o st1, enc_runs toy st0 fed o st1 -> fed = [] -> o = []).
    { clear. induction 1 as [|s0 b n o s1 fed out s2 W _ IH|s0 o s1 fed out s2 W _ IH]; intro F; [reflexivity|..].
      - apply app_eq_nil in F as [F1 F2]. rewrite (IH F2), app_nil_r. cbn [toy enc_write] in W. injection W as <- <- _. destruct b as [|x b]; [reflexivity|].
        exfalso. assert (X : N.to_nat (N.min 3 (len (x :: b))) <> 0%nat) by (rewrite len_cons; lia). destruct (N.to_nat (N.min 3 (len (x :: b)))); [contradiction|discriminate F1].
      - cbn [toy enc_flush] in W. injection W as <- _. exact (IH F). }
    rewrite (Z _ _ _ _ R eq_refl). change (len (enc_finish toy st)) with 1. cbn. lia.
  - exists w. split; [exact CA|]. intros cfg s SD NF. destruct (form_read toy cfg [] letters digits s _ w toy_ok good_letters ltac:(rewrite H; reflexivity) CA L SD NF) as (ys & E & SP & _).
    assert (ys = flood) as -> by (symmetry; exact (received_same _ _ E)). apply SP. rewrite flood_size, flood_len. left. split; reflexivity.
Qed.
Print Assumptions C71_refuted.
(** a connection that breaks in the middle of a part *)
Example C71_broken : (forall ys, [Some {| pt_filename := None; pt_chunks := [Some [x01]; None] |}] <> received ys) /\
  fst (create_archive flate bumpy letters digits true true [Some {| pt_filename := None; pt_chunks := [Some [x01]; None] |}]) = Bail.
Proof.
  split; [|vm_compute; reflexivity]. intros [|y ys] E; [discriminate E|]. destruct y as [n [|a [|b m]]]; cbn in E; discriminate E.
Qed.
(** Parts of the same name make entries of the same name. *)
Theorem C71_twice : exists l w, create_archive flate [] letters digits true true l = (Done tt, Some w) /\
  match fst (file cfg0 (cursor (w_bytes w))) with
  | Ok f => map (fun e => zs_raw (en_filename (st_entry e))) (f_entries f) = [[x61]; [x61]]
  | _ => False
  end.
Proof.
  exists (received [(Some [x61], [[x01]]); (Some [x61], [[x02]])]). eexists. split; [vm_compute; reflexivity|]. vm_compute. reflexivity.
Qed.
Print Assumptions C71_twice.
