(** Property theorems: archives that were cut short, and entries copied from archive to archive. *)
From Verif Require Import Base BaseFacts SpecFormat SpecCrc SpecUtf8 SpecArchive SpecRead SpecWrite SpecStream ZString ZDate Headers ExtraField Entry
  IO IOFacts Reader EntryReader StreamReader Writer Samples WriteSamples SpecCopy CutProofs CopyProofs Utf8 Utf8Facts.

(** * C39. An archive this crate wrote, cut anywhere before its comment, does not open, if it has one end-record
    signature only. *)
Theorem C39_cut_partial cd cfg sched s l n : codec_ok cd -> Forall op_good l ->
  let '(xs, r, w) := run_archive cd sched l in
  let d := w_bytes w in
  let e := len d - len (last_comment l) - 22 in
  r = Ok tt -> len d < 0x10000000000000000 -> (forall q, found_at (le 4 0x06054b50) d q -> q = e) ->
  s_data s = take n d -> nofail (s_sched s) -> n + len (last_comment l) < len d ->
  fst (file cfg s) = if n <? e + 4 then Err UnableToLocateEOCDR else Err (UpstreamReadError UnexpectedEof).
Proof. exact (cut_archive cd cfg sched s l n). Qed.
Print Assumptions C39_cut_partial.
Definition only_at (sig d : bytes) (n : N) : bool :=
  forallb (fun i => Nat.eqb i (N.to_nat n) || negb (bytes_eqb (firstn (length sig) (skipn i d)) sig)) (seq 0 (S (length d))).
Lemma only_at_ok sig d n : only_at sig d n = true -> forall q, found_at sig d q -> q = n.
Proof.
  intros H q (a & b & E & L). unfold only_at in H. rewrite forallb_forall in H. specialize (H (N.to_nat q)).
  assert (Hlen : (N.to_nat q = length a)%nat) by (unfold len in L; lia).
  assert (Hd : (length a <= length d)%nat) by (rewrite E, app_length; lia).
  rewrite in_seq in H. specialize (H ltac:(lia)). apply orb_true_iff in H as [H|H]; [apply Nat.eqb_eq in H; lia|].
  assert (Es : firstn (length sig) (skipn (N.to_nat q) d) = sig).
  { rewrite Hlen, E, skipn_app, skipn_all, Nat.sub_diag. cbn [skipn app].
    rewrite firstn_app, Nat.sub_diag, firstn_all. cbn [firstn]. apply app_nil_r. }
  rewrite Es in H. unfold bytes_eqb in H. destruct (list_eq_dec _ sig sig); [discriminate|contradiction].
Qed.
Example C39_case : codec_ok toy /\ Forall op_good history /\
  let '(xs, r, w) := run_archive toy bumpy history in
  let d := w_bytes w in
  r = Ok tt /\ len d < 0x10000000000000000 /\ len d = 541 /\ last_comment history = [x68; x65; x79] /\
  (forall q, found_at (le 4 0x06054b50) d q -> q = len d - len (last_comment history) - 22).
Proof.
  split; [exact toy_ok|]. split; [repeat constructor; cbn; discriminate|].
  assert (H : let '(xs, r, w) := run_archive toy bumpy history in
    r = Ok tt /\ len (w_bytes w) = 541 /\ only_at (le 4 0x06054b50) (w_bytes w) (len (w_bytes w) - len (last_comment history) - 22) = true).
  { vm_compute. repeat split. }
  destruct (run_archive toy bumpy history) as [[xs r] w]. cbv zeta. destruct H as (H1 & H2 & H3).
  split; [easy|]. split; [rewrite H2; reflexivity|]. split; [easy|]. split; [reflexivity|]. now apply only_at_ok.
Qed.
(** Cut inside its comment it opens, with the same entries and a shorter comment. *)
Theorem C39_comment cd cfg sched s l n : codec_ok cd -> Forall op_good l ->
  let '(xs, r, w) := run_archive cd sched l in
  let d := w_bytes w in
  r = Ok tt -> unambiguous cd cfg l xs (w_zip64 w) d -> s_data s = take n d -> nofail (s_sched s) ->
  len d <= n + len (last_comment l) -> n <= len d ->
  exists f f', fst (file cfg (cursor d)) = Ok f /\ fst (file cfg s) = Ok f' /\
    f_entries f' = f_entries f /\ f_zip64 f' = f_zip64 f /\
    comment_reads_as (last_comment l) (f_comment f) /\
    comment_reads_as (take (n + len (last_comment l) - len d) (last_comment l)) (f_comment f').
Proof. exact (cut_comment cd cfg sched s l n). Qed.
Print Assumptions C39_comment.
Example C39_comment_case : let '(xs, r, w) := run_archive toy bumpy history in
  let d := w_bytes w in
  r = Ok tt /\ unambiguous toy cfg0 history xs (w_zip64 w) d /\ len d = 541 /\ len (last_comment history) = 3.
Proof.
  assert (H : let '(xs, r, w) := run_archive toy bumpy history in
    r = Ok tt /\ clear_end xs (w_zip64 w) (last_comment history) (w_bytes w) = true /\ len (w_bytes w) = 541).
  { vm_compute. repeat split. }
  destruct (run_archive toy bumpy history) as [[xs r] w]. cbv zeta. destruct H as (H1 & H2 & H3).
  split; [easy|]. split; [now apply clear_end_ok|]. split; [easy|reflexivity].
Qed.
(** The data of an entry cut short passes the checked read only if it is stored and what is left has the same CRC. *)
Theorem C39_entry_partial cd s c n l e z missing content : dec_online cd -> dec_within cd ->
  let '(xs, r) := er_reads cd l (er_new s c n) in
  let w := take n (drop (s_pos s) (s_data s)) in
  missing <> [] -> z = w ++ missing -> (c <> Stored -> dec cd c z = (content, Some (len z))) ->
  forall b, fst (er_read_to_end_checked cd e r) = Ok b -> c = Stored /\ delivered xs ++ b = w /\ crc32_spec w = en_crc32 e.
Proof. exact (cut_entry cd s c n l e z missing content). Qed.
Print Assumptions C39_entry_partial.
Lemma toy_online : dec_online toy.
Proof.
  intros c w out k rest H. cbn [toy dec] in *. revert out k H.
  assert (G : forall n l, (length l <= n)%nat -> forall out k, toy_dec l = (out, Some k) -> toy_dec (l ++ rest) = (out, Some k)).
  { induction n as [|n IH]; intros l L out k H; (destruct l as [|x l]; [discriminate|]); cbn [length] in L; [lia|].
    cbn [app toy_dec] in *. destruct x; try discriminate; [easy|]. destruct l as [|b l]; [discriminate|]. cbn [app length] in *.
    destruct (toy_dec l) as [o [j|]] eqn:E; [|discriminate]. rewrite (IH l ltac:(lia) o j E). exact H. }
  intros out k. now apply (G (length w)).
Qed.
Definition short2 : source := {| s_data := firstn 4 data2; s_pos := 0; s_sched := [RPending; RChunk 0; RPending; RChunk 7] |}.
Example C39_entry_case : dec_online toy /\ dec_within toy /\ data2 = take 5 (drop 0 (firstn 4 data2)) ++ [x00] /\
  dec toy Deflate data2 = ([x78; x79], Some (len data2)) /\
  fst (er_read_to_end_checked toy entry2 (er_new short2 Deflate 5)) = Err (UpstreamReadError InvalidData).
Proof. split; [exact toy_online|]. split; [exact toy_within|]. vm_compute. repeat split; reflexivity. Qed.

(** Not at every point: without its last byte the archive opens all the same, with a shorter comment; cut behind the data of
    a stored entry that is an archive itself, that archive is what opens; and a stored entry whose beginning has the
    same CRC passes the check of the stream reader. *)
Definition outcome_of {A B} (r : res A) (g : A -> B) : option B := match r with Ok a => Some (g a) | _ => None end.
Theorem C39_refuted : exists l, let '(xs, r, w) := run_archive toy [] l in
  r = Ok tt /\ Forall (fun x => worked (snd x) = true) xs /\
  outcome_of (fst (file cfg0 (cursor (w_bytes w)))) (fun f => zs_raw (f_comment f)) = Some [x68; x65; x79] /\
  outcome_of (fst (file cfg0 (cursor (take (len (w_bytes w) - 1) (w_bytes w))))) (fun f => zs_raw (f_comment f)) = Some [x68; x65].
Proof. exists [OpWhole entry1 [x68]; OpComment [x68; x65; x79]]. vm_compute. repeat split. repeat constructor. Qed.
Print Assumptions C39_refuted.
Theorem C39_refuted_nested : exists l n, let '(xs, r, w) := run_archive toy [] l in
  r = Ok tt /\ Forall (fun x => worked (snd x) = true) xs /\
  outcome_of (fst (file cfg0 (cursor (w_bytes w)))) (fun f => len (f_entries f)) = Some 1 /\ n < len (w_bytes w) /\
  outcome_of (fst (file cfg0 (cursor (take n (w_bytes w))))) (fun f => len (f_entries f)) = Some 0.
Proof. exists [OpWhole entry1 (w_bytes (snd (run_archive toy [] [])))], 59. vm_compute. repeat split. repeat constructor. Qed.
Print Assumptions C39_refuted_nested.
Theorem C39_refuted_stream : exists l n data, let '(xs, r, w) := run_archive toy [] l in
  r = Ok tt /\ xs = [(OpWhole entry1 data, Ok tt)] /\ n < len (w_bytes w) /\ data <> [] /\
  outcome_of (fst (stream_next cfg0 (cursor (take n (w_bytes w)))))
    (fun o => option_map (fun x => fst (er_read_to_end_checked toy (rd_entry x) (rd_reader x))) o) = Some (Some (Ok [])).
Proof. exists [OpWhole entry1 [x9d; x0a; xd9; x6d]], 37, [x9d; x0a; xd9; x6d]. vm_compute. repeat split. discriminate. Qed.
Print Assumptions C39_refuted_stream.

(** * C40. Copying: what is read from an archive and written with its data to a new one is read from that one. *)
Theorem C40_copy_partial cd cfg sched es : codec_ok cd -> Forall copyable es ->
  let '(xs, r, w) := run_archive cd sched (copy_ops es) in
  r = Ok tt -> Forall (fun x => worked (snd x) = true) xs -> manageable cfg (w_zip64 w) (len es) (w_bytes w) ->
  exists es', taken cd cfg (w_bytes w) es' /\ Forall2 copy_of es es' /\ Forall copyable es'.
Proof. exact (copy_step cd cfg sched es). Qed.
Print Assumptions C40_copy_partial.
(** Any number of times. *)
Theorem C40_generations_partial cd cfg n es es' : codec_ok cd -> Forall copyable es -> copies cd cfg n es es' ->
  Forall2 copy_of es es' /\ Forall copyable es'.
Proof. exact (generations cd cfg n es es'). Qed.
Print Assumptions C40_generations_partial.
(** What a reader gives of a member without ZIP64 field is of this kind, unless it claims UTF-8 falsely. *)
Theorem C40_read_partial a st data : member_ok a -> reported a st -> a_zip64 a = [] -> len data <= 0xFFFFFFFF ->
  (N.testbit (a_flags a) 11 = true -> SpecUtf8.is_utf8 (a_name a) /\ SpecUtf8.is_utf8 (a_comment a)) -> copyable (st_entry st, data).
Proof. exact (reported_copyable a st data). Qed.
Print Assumptions C40_read_partial.

Definition pull (d : bytes) : option (list (zentry * bytes)) :=
  match mem_new cfg0 d with
  | Ok m =>
    fold_right (fun (i : nat) acc => match nth_error (f_entries (m_file m)) i, mem_read_entry toy m (N.of_nat i), acc with
      | Some st, Ok b, Some l => Some ((st_entry st, b) :: l) | _, _, _ => None end) (Some []) (seq 0 (length (f_entries (m_file m))))
  | _ => None
  end.
Lemma pull_ok d es : pull d = Some es -> taken toy cfg0 d es.
Proof.
  unfold pull, mem_new. destruct (fst (file cfg0 (cursor d))) as [f|e|p] eqn:F; try discriminate. cbn [m_file]. intro H. exists f.
  split; [unfold mem_new; now rewrite F|].
  set (rd := mem_read_entry toy {| m_data := d; m_file := f |}) in *.
  assert (G : forall l k es, fold_right (fun (i : nat) acc => match nth_error (f_entries f) i, rd (N.of_nat i), acc with
      | Some st, Ok b, Some l => Some ((st_entry st, b) :: l) | _, _, _ => None end) (Some []) (seq k l) = Some es ->
      (k + l = length (f_entries f))%nat ->
      map st_entry (skipn k (f_entries f)) = map fst es /\
      forall n x, nth_error es n = Some x -> rd (N.of_nat (k + n)) = Ok (snd x)).
  { induction l as [|l IH]; intros k es0 H0 L.
    - cbn in H0. injection H0 as <-. rewrite skipn_all2 by lia. split; [easy|]. intros [|n]; discriminate.
    - cbn [seq fold_right] in H0. destruct (nth_error (f_entries f) k) as [st|] eqn:N; [|discriminate].
      destruct (rd (N.of_nat k)) as [b|e|p] eqn:R; try discriminate.
      destruct (fold_right _ _ (seq (S k) l)) as [es1|] eqn:E; [|discriminate]. injection H0 as <-.
      destruct (IH (S k) es1 E ltac:(lia)) as [I1 I2]. split.
      + cbn [map fst]. rewrite <- I1. clear -N. revert N. generalize (f_entries f). induction k as [|k IH]; intros [|y l] N; try discriminate.
        * cbn in N. injection N as ->. reflexivity.
        * cbn [skipn]. now apply IH.
      + intros [|n] x X.
        * cbn in X. injection X as <-. now rewrite Nat.add_0_r.
        * cbn in X. rewrite Nat.add_succ_r. exact (I2 n x X). }
  destruct (G _ 0%nat _ H eq_refl) as [G1 G2]. split; [exact G1|]. intros i x X. specialize (G2 _ _ X). cbn [Nat.add] in G2. now rewrite N2Nat.id in G2.
Qed.
Definition regrown (es : list (zentry * bytes)) : option (list (zentry * bytes)) :=
  let '(xs, r, w) := run_archive toy bumpy (copy_ops es) in
  if worked r && forallb (fun x => worked (snd x)) xs && clear_end (map (fun _ => (OpComment [], Ok tt)) es) (w_zip64 w) [] (w_bytes w)
  then pull (w_bytes w) else None.
Lemma regrown_ok es es' : regrown es = Some es' -> copied toy cfg0 es es'.
Proof.
  unfold regrown. intro H. exists bumpy. destruct (run_archive toy bumpy (copy_ops es)) as [[xs r] w].
  destruct (worked r) eqn:W; [|discriminate]. destruct (forallb _ xs) eqn:X; [|discriminate]. destruct (clear_end _ _ _ _) eqn:C; [|discriminate]. cbn [andb] in H.
  split; [destruct r as [[]| |]; easy|]. split; [apply Forall_forall; now apply forallb_forall|]. split; [|now apply pull_ok].
  pose proof (clear_end_ok toy [] _ _ _ C) as (_ & _ & S & E & _). unfold clear_end in C.
  apply andb_true_iff in C as [C _]. apply andb_true_iff in C as [C _]. apply andb_true_iff in C as [C _]. apply andb_true_iff in C as [C A4].
  apply andb_true_iff in C as [C A3]. apply N.leb_le in A3, A4. unfold len in A4. rewrite map_length in A4.
  split; [exact A3|]. split; [exact E|]. cbn [entry_mem_size cfg0]. unfold len. lia.
Qed.
(** an entry with raw name bytes, one with a comment and an alternative and stale Unicode fields *)
Definition rawname : zentry := mk_entry {| zs_enc := ERaw; zs_raw := [x82]; zs_alt := None |} (utf8 [xc3; xa9]) Stored [XUnknown 7 0 []].
Definition stale : zentry :=
  mk_entry {| zs_enc := EUtf8; zs_raw := [x62]; zs_alt := Some [x63] |} {| zs_enc := EUtf8; zs_raw := [x64]; zs_alt := Some [x83] |} Deflate
    [XPath (UV1 5 [x7a]); XUnknown 0xCAFE 1 [x09]; XComment (UV1 6 [x79])].
Definition crowd : list (zentry * bytes) := [(entry1, [x68; x69; x21]); (rawname, []); (stale, [x01; x02]); (entry2, [x00])].
Example C40_case : codec_ok toy /\ Forall copyable crowd /\ exists es', copies toy cfg0 3 crowd es' /\ len es' = 4.
Proof.
  split; [exact toy_ok|]. split.
  { assert (U : forall l, utf8_valid l = true -> sound_string (utf8 l)) by (intros l H; split; [intros _; now apply utf8_valid_iff|discriminate]).
    assert (V : forall l a, utf8_valid l = true -> sound_string {| zs_enc := EUtf8; zs_raw := l; zs_alt := Some a |}) by (intros l a H; split; [intros _; now apply utf8_valid_iff|discriminate]).
    assert (W : forall l, sound_string {| zs_enc := ERaw; zs_raw := l; zs_alt := None |}) by (intros l; split; [discriminate|easy]).
    repeat (apply Forall_cons || apply Forall_nil); (split; [split; [repeat split|repeat constructor; cbn; try lia]|]); (split; [cbn; lia|]);
      (split; [first [apply U; reflexivity|apply V; reflexivity|apply W]|]); (split; [first [apply U; reflexivity|apply V; reflexivity|apply W]|]).
    - left. repeat split.
    - right. split; left.
      + right. split; [reflexivity|]. split; [discriminate|]. left. repeat constructor. intros (t & H). discriminate.
      + left. split; [reflexivity|]. split; [discriminate|]. left. repeat constructor. discriminate.
    - right. split; left; left; (split; [reflexivity|]); (split; [discriminate|]); right.
      + exists [], 5, [x7a], [XUnknown 0xCAFE 1 [x09]; XComment (UV1 6 [x79])]. split; [reflexivity|constructor].
      + exists [XPath (UV1 5 [x7a]); XUnknown 0xCAFE 1 [x09]], 6, [x79], []. split; [reflexivity|]. repeat constructor; discriminate.
    - right. split; left.
      + left. split; [reflexivity|]. split; [discriminate|]. left. constructor.
      + right. split; [reflexivity|]. split; [intros _; constructor|]. left. constructor. }
  assert (H : match regrown crowd with Some a => match regrown a with Some b => match regrown b with Some c => len c = 4 | _ => False end | _ => False end | _ => False end)
    by (vm_compute; reflexivity).
  destruct (regrown crowd) as [a|] eqn:A; [|easy]. destruct (regrown a) as [b|] eqn:B; [|easy]. destruct (regrown b) as [c|] eqn:C; [|easy].
  exists c. split; [|exact H]. repeat (eapply copies_more; [apply regrown_ok; eassumption|]). constructor.
Qed.
(** Not every entry: one that was streamed has a ZIP64 field; a copy of it reads, but a copy of that copy does not. *)
Theorem C40_refuted : exists l es1 es2, Forall op_good l /\
  (let '(xs, r, w) := run_archive toy [] l in r = Ok tt /\ Forall (fun x => worked (snd x) = true) xs /\ taken toy cfg0 (w_bytes w) es1) /\
  copied toy cfg0 es1 es2 /\
  (let '(xs, r, w) := run_archive toy [] (copy_ops es2) in
   r = Ok tt /\ Forall (fun x => worked (snd x) = true) xs /\ manageable cfg0 (w_zip64 w) (len es2) (w_bytes w) /\ len es2 = 1 /\
   exists f, mem_new cfg0 (w_bytes w) = Ok {| m_data := w_bytes w; m_file := f |} /\
     mem_read_entry toy {| m_data := w_bytes w; m_file := f |} 0 = Err CRC32CheckError).
Proof.
  assert (H : match pull (w_bytes (snd (run_archive toy [] [OpStream false entry1 [SWriteAll [x68]] true]))) with
    | Some es1 => match regrown es1 with
      | Some es2 => let '(xs, r, w) := run_archive toy [] (copy_ops es2) in
          r = Ok tt /\ Forall (fun x => worked (snd x) = true) xs /\ len es2 = 1 /\ clear_end [(OpComment [], Ok tt)] (w_zip64 w) [] (w_bytes w) = true /\
          opened (w_bytes w) (fun f => mem_read_entry toy {| m_data := w_bytes w; m_file := f |} 0) = Some (Err CRC32CheckError)
      | None => False end
    | None => False end).
  { vm_compute. repeat split. repeat constructor. }
  destruct (pull _) as [es1|] eqn:P; [|easy]. destruct (regrown es1) as [es2|] eqn:G; [|easy].
  exists [OpStream false entry1 [SWriteAll [x68]] true], es1, es2. split; [repeat constructor; cbn; lia|].
  split; [|split; [now apply regrown_ok|]].
  - apply pull_ok in P.
    assert (R : let '(xs, r, w) := run_archive toy [] [OpStream false entry1 [SWriteAll [x68]] true] in r = Ok tt /\ Forall (fun x => worked (snd x) = true) xs).
    { vm_compute. repeat split. repeat constructor. }
    destruct (run_archive toy [] [OpStream false entry1 [SWriteAll [x68]] true]) as [[xs r] w]. destruct R. auto.
  - destruct (run_archive toy [] (copy_ops es2)) as [[xs r] w]. destruct H as (H1 & H2 & H3 & H4 & H5). split; [easy|]. split; [easy|]. split; [|split; [easy|now apply opened_ok]].
    pose proof (clear_end_ok toy [] _ _ _ H4) as (_ & _ & _ & E & _). unfold clear_end in H4.
    repeat (apply andb_true_iff in H4 as [H4 ?]). split; [now apply N.leb_le|]. split; [exact E|]. rewrite H3. cbn. lia.
Qed.
Print Assumptions C40_refuted.
(** Nor one whose archive claimed UTF-8 falsely: a Unicode field that was out of force then takes effect, and the copy has
    another name. *)
Definition false_claim : member :=
  {| a_made_by := 0x031E; a_needed := 10; a_flags := 0x0800; a_method := Stored; a_time := 7; a_date := 33;
     a_crc := 0; a_usize := 0; a_csize := 0; a_offset := 0; a_disk := 0; a_u64 := false; a_c64 := false; a_o64 := false; a_d64 := false;
     a_iattr := 0; a_eattr := 0; a_name := [x82]; a_comment := []; a_before := [XPath (UV1 (crc32_spec [x82]) [x7a])]; a_after := [] |}.
Definition false_archive : bytes :=
  let local := local_header 10 0x0800 0 7 33 0 0 0 1 0 ++ [x82] in
  local ++ members [false_claim] ++ end_record 0 0 1 1 (len (members [false_claim])) (len local) 0.
Lemma false_claim_ok : member_ok false_claim.
Proof.
  unfold member_ok, fits. do 17 (split; [first [discriminate|vm_compute; reflexivity|vm_compute; now intros []]|]). split; [|constructor].
  constructor; [|constructor]. vm_compute. reflexivity.
Qed.
Lemma false_claim_copy : exists e e', pull false_archive = Some [(e, [])] /\ regrown [(e, [])] = Some [(e', [])] /\ zs_raw (en_filename e) = [x82] /\ zs_raw (en_filename e') = [x7a].
Proof.
  assert (H : match pull false_archive with
    | Some [(e, [])] => match regrown [(e, [])] with Some [(e', [])] => zs_raw (en_filename e) = [x82] /\ zs_raw (en_filename e') = [x7a] | _ => False end
    | _ => False end) by (vm_compute; split; reflexivity).
  revert H. generalize (pull false_archive). intros [[|[e [|]] [|]]|] H; try (exfalso; exact H).
  exists e. revert H. generalize (regrown [(e, [])]). intros [[|[e' [|]] [|]]|] H; try (exfalso; exact H).
  exists e'. auto.
Qed.
Theorem C40_refuted_name : exists a d e e', member_ok a /\ a_zip64 a = [] /\ d = local_header 10 0x0800 0 7 33 0 0 0 1 0 ++ [x82] ++ members [a] ++
    end_record 0 0 1 1 (len (members [a])) 31 0 /\
  taken toy cfg0 d [(e, [])] /\ copied toy cfg0 [(e, [])] [(e', [])] /\ zs_raw (en_filename e) = [x82] /\ zs_raw (en_filename e') = [x7a].
Proof.
  destruct false_claim_copy as (e & e' & P & G & H). exists false_claim, false_archive, e, e'. split; [exact false_claim_ok|].
  split; [reflexivity|]. split; [vm_compute; reflexivity|]. split; [exact (pull_ok _ _ P)|]. split; [exact (regrown_ok _ _ G)|]. exact H.
Qed.
Print Assumptions C40_refuted_name.

(** * C41. Attributes, permissions among them, come back from an archive (as do date and method). *)
Theorem C41_archive_partial cd cfg sched s l : codec_ok cd -> Forall op_good l ->
  let '(xs, r, w) := run_archive cd sched l in
  let d := w_bytes w in
  r = Ok tt -> unambiguous cd cfg l xs (w_zip64 w) d -> s_data s = d -> nofail (s_sched s) ->
  exists f, fst (file cfg s) = Ok f /\
    Forall2 (fun x st => forall e, op_entry (snd x) = Some e ->
      entry_unix_permissions (st_entry st) = entry_unix_permissions e /\ en_eattr (st_entry st) = en_eattr e /\
      en_iattr (st_entry st) = en_iattr e /\ en_attr_compat (st_entry st) = en_attr_compat e /\ en_date (st_entry st) = en_date e /\
      en_compression (st_entry st) = en_compression e) (succeeded false xs) (f_entries f).
Proof. exact (attributes_back cd cfg sched s l). Qed.
Print Assumptions C41_archive_partial.
Example C41_archive_case : let e := set_unix_permissions entry1 33261 in
  let '(xs, r, w) := run_archive toy bumpy [OpWhole e [x68]] in
  r = Ok tt /\ unambiguous toy cfg0 [OpWhole e [x68]] xs (w_zip64 w) (w_bytes w) /\
  opened (w_bytes w) (fun f => map (fun st => entry_unix_permissions (st_entry st)) (f_entries f)) = Some [Some 33261].
Proof.
  set (l := [OpWhole (set_unix_permissions entry1 33261) [x68]]). cbv zeta. fold l.
  assert (H : let '(xs, r, w) := run_archive toy bumpy l in r = Ok tt /\ clear_end xs (w_zip64 w) (last_comment l) (w_bytes w) = true /\
    opened (w_bytes w) (fun f => map (fun st => entry_unix_permissions (st_entry st)) (f_entries f)) = Some [Some 33261]).
  { vm_compute. repeat split. }
  destruct (run_archive toy bumpy l) as [[xs r] w]. destruct H as (H1 & H2 & H3). split; [easy|]. split; [now apply clear_end_ok|exact H3].
Qed.

(** Not whatever the archive comment is: one that holds a directory and an end record of its own is taken for the real
    one, and what is reported then is not what was written. *)
Definition forged (e : zentry) (n : N) : list wop :=
  [OpWhole e [x68]; OpComment (central_header 0x031E 10 0x0800 0 7 33 0 0 0 1 0 0 0 0 0x81FF0000 3 ++ [x7a] ++ end_record 0 0 1 1 47 n 0)].
(** every entry written has mode 0644, the one reported has 0777 *)
Theorem C41_refuted : exists l f, Forall op_good l /\
  let '(xs, r, w) := run_archive toy [] l in
  r = Ok tt /\ Forall (fun x => worked (snd x) = true) xs /\
  (forall e b, In (OpWhole e b) l -> entry_unix_permissions e = Some 33188) /\
  mem_new cfg0 (w_bytes w) = Ok {| m_data := w_bytes w; m_file := f |} /\
  map (fun st => entry_unix_permissions (st_entry st)) (f_entries f) = [Some 33279].
Proof.
  set (l := forged (set_unix_permissions entry1 33188) 114).
  assert (H : let '(xs, r, w) := run_archive toy [] l in r = Ok tt /\ Forall (fun x => worked (snd x) = true) xs /\
    opened (w_bytes w) (fun f => map (fun st => entry_unix_permissions (st_entry st)) (f_entries f)) = Some [Some 33279]).
  { vm_compute. repeat constructor. }
  assert (G : Forall op_good l) by (repeat constructor; cbn; discriminate).
  assert (P : forall e b, In (OpWhole e b) l -> entry_unix_permissions e = Some 33188).
  { intros e b [E|[E|[]]]; [|discriminate]. injection E as <- _. reflexivity. }
  destruct (run_archive toy [] l) as [[xs r] w] eqn:R. destruct H as (H1 & H2 & H3). apply opened_ok in H3 as (f & F & H3).
  exists l, f. split; [exact G|]. rewrite R. exact (conj H1 (conj H2 (conj P (conj F H3)))).
Qed.
Print Assumptions C41_refuted.
(** * C44. The same comment: there is no local header where the reported entry is said to begin. *)
Theorem C44_refuted : exists l f st, Forall op_good l /\
  let '(xs, r, w) := run_archive toy [] l in
  r = Ok tt /\ Forall (fun x => worked (snd x) = true) xs /\
  mem_new cfg0 (w_bytes w) = Ok {| m_data := w_bytes w; m_file := f |} /\ f_entries f = [st] /\
  ~ found_at (le 4 0x04034b50) (w_bytes w) (st_file_offset st).
Proof.
  set (l := forged (set_unix_permissions entry1 33188) 114).
  assert (H : let '(xs, r, w) := run_archive toy [] l in r = Ok tt /\ Forall (fun x => worked (snd x) = true) xs /\
    opened (w_bytes w) (fun f => match f_entries f with [st] => at_pos (le 4 0x04034b50) (w_bytes w) (st_file_offset st) | _ => true end) = Some false).
  { vm_compute. repeat constructor. }
  assert (G : Forall op_good l) by (repeat constructor; cbn; discriminate).
  destruct (run_archive toy [] l) as [[xs r] w] eqn:R. destruct H as (H1 & H2 & H3). apply opened_ok in H3 as (f & F & H3).
  destruct (f_entries f) as [|st [|]] eqn:E; [discriminate H3| |discriminate H3].
  exists l, f, st. split; [exact G|]. rewrite R. split; [exact H1|]. split; [exact H2|]. split; [exact F|]. split; [exact E|]. exact (not_at_ok _ _ _ H3).
Qed.
Print Assumptions C44_refuted.
(** * C45. Nor are the other entries always listed once a stream was dropped: again the comment decides. *)
Theorem C45_refuted : exists l f, Forall op_good l /\
  let '(xs, r, w) := run_archive toy [] l in
  r = Ok tt /\ Forall (fun x => worked (snd x) = true) xs /\ existsb (fun x => dropped (fst x)) xs = true /\
  len (succeeded false xs) = 1 /\ mem_new cfg0 (w_bytes w) = Ok {| m_data := w_bytes w; m_file := f |} /\ f_entries f = [].
Proof.
  set (l := [OpWhole entry1 [x68]; OpStream false entry2 [SWriteAll [x07; x08]] false; OpComment (end_record 0 0 0 0 0 0 0)]).
  assert (H : let '(xs, r, w) := run_archive toy [] l in r = Ok tt /\ Forall (fun x => worked (snd x) = true) xs /\ existsb (fun x => dropped (fst x)) xs = true /\
    len (succeeded false xs) = 1 /\ opened (w_bytes w) f_entries = Some []).
  { vm_compute. repeat constructor. }
  assert (G : Forall op_good l) by (repeat constructor; cbn; discriminate).
  destruct (run_archive toy [] l) as [[xs r] w] eqn:R. destruct H as (H1 & H2 & H3 & H4 & H5). apply opened_ok in H5 as (f & F & H5).
  exists l, f. split; [exact G|]. rewrite R. exact (conj H1 (conj H2 (conj H3 (conj H4 (conj F H5))))).
Qed.
Print Assumptions C45_refuted.
