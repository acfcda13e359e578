(** Property theorems: this crate's reader and others take a file for the same archive. *)
From Verif Require Import Base SpecFormat SpecCrc SpecArchive SpecRead SpecWrite SpecStrict SpecAccept SpecAgree ZString ZDate Headers ExtraField Entry
  IO IOFacts Reader EntryReader Writer Samples WriteSamples AgreeProofs.

(** * C95. Readers agree on what is in a file. *)
(** Any file that both open, provided that they mean the same end record and that the directory holds as many records as it says: the same
    entries in the same order, and the same contents. *)
Theorem C95_agree_partial cfg cd s f vs : fst (file cfg s) = Ok f -> sights cd (s_data s) = Some vs -> same_end (s_data s) -> counted (s_data s) (len vs) ->
  len (s_data s) < 0x10000000000000000 ->
  Forall2 concurs vs (f_entries f) /\
  (nofail (s_sched s) -> forall i v, nth_error vs (N.to_nat i) = Some v -> exists e, nth_error (f_entries f) (N.to_nat i) = Some e /\
     (forall c, read_entry cd f i s = Ok c -> c = v_content v) /\
     (has_local_header (s_data s) e -> crc32_spec (v_content v) = r_crc (v_listing v) -> read_entry cd f i s = Ok (v_content v))).
Proof. exact (both_agree cfg cd s f vs). Qed.
Print Assumptions C95_agree_partial.

(** ** Two archives in one file *)
(** The comment of an archive with the file "a" is an archive with the file "b", and a byte more. *)
Definition b_local : bytes := local_header 10 0 0 0 33 (crc32_spec [x6e; x6f]) 2 2 1 0 ++ [x62] ++ [x6e; x6f].
Definition b_central (at_ : N) : bytes := central_header 20 10 0 0 0 33 (crc32_spec [x6e; x6f]) 2 2 1 0 0 0 0 0 at_ ++ [x62].
Definition behind (at_ : N) : bytes := b_local ++ b_central at_ ++ end_record 0 0 1 1 (len (b_central at_)) (at_ + len b_local) 0 ++ [x00].
Definition before_comment : N :=
  let '(_, _, w) := run_archive toy [] [OpForceNoZip64; OpWhole entry1 [x68; x69; x21]] in len (w_bytes w).
Definition two_faced : list wop := [OpForceNoZip64; OpWhole entry1 [x68; x69; x21]; OpComment (behind before_comment)].
(** A caller that lets others choose the comment has an archive written that shows "a" to other readers and "b" to this crate's, which reads it without complaint. *)
Theorem C95_refuted : let '(xs, r, w) := run_archive toy [] two_faced in
  let d := w_bytes w in
  r = Ok tt /\ Forall (fun x => worked (snd x) = true) xs /\ strict toy d = true /\
  (exists vs, sights toy d = Some vs /\ map (fun v => (r_name (v_listing v), v_content v)) vs = [([x61], [x68; x69; x21])]) /\
  (exists f, fst (file cfg0 (cursor d)) = Ok f /\ map (fun e => zs_raw (en_filename (st_entry e))) (f_entries f) = [[x62]] /\ read_entry toy f 0 (cursor d) = Ok [x6e; x6f]).
Proof.
  assert (H : let '(xs, r, w) := run_archive toy [] two_faced in
    r = Ok tt /\ Forall (fun x => worked (snd x) = true) xs /\ strict toy (w_bytes w) = true /\
    match sights toy (w_bytes w) with Some vs => map (fun v => (r_name (v_listing v), v_content v)) vs = [([x61], [x68; x69; x21])] | None => False end /\
    match fst (file cfg0 (cursor (w_bytes w))) with
    | Ok f => map (fun e => zs_raw (en_filename (st_entry e))) (f_entries f) = [[x62]] /\ read_entry toy f 0 (cursor (w_bytes w)) = Ok [x6e; x6f]
    | _ => False end).
  { vm_compute. split; [reflexivity|]. split; [repeat constructor|]. repeat split; reflexivity. }
  destruct (run_archive toy [] two_faced) as [[xs r] w]. destruct H as (H1 & H2 & H3 & H4 & H5). cbv zeta. split; [exact H1|]. split; [exact H2|]. split; [exact H3|].
  destruct (sights toy (w_bytes w)) as [vs|]; [|easy]. destruct (fst (file cfg0 (cursor (w_bytes w)))) as [f| |]; try easy.
  split; [now exists vs|now exists f].
Qed.
Print Assumptions C95_refuted.
(** The number in the end record is believed by this crate, the length of the directory by others. *)
Definition uncounted : bytes := body ++ members [member1; member2] ++ end_record 0 0 1 1 (len (members [member1; member2])) (len body) 0.
Example C95_count : match sights toy uncounted with Some vs => len vs = 2 | None => False end /\
  match fst (file cfg0 (cursor uncounted)) with Ok f => len (f_entries f) = 1 | _ => False end /\ counted uncounted 1.
Proof.
  split; [vm_compute; reflexivity|]. split; [vm_compute; reflexivity|].
  exists (body ++ members [member1; member2]), (len (members [member1; member2])), (len body). vm_compute. reflexivity.
Qed.

(** two entries, ZIP64 fields, a ZIP64 end and a comment *)
Definition both64 : bytes :=
  body ++ members [member1; member2] ++ zip64_end 44 798 46 0 0 2 2 (len (members [member1; member2])) (len body) ++
  zip64_end_locator 0 (len (body ++ members [member1; member2])) 1 ++ end_record 0 0 2 2 (len (members [member1; member2])) (len body) 3 ++ comment0.
Example C95_case : exists f vs, fst (file cfg0 (cursor both64)) = Ok f /\ sights toy both64 = Some vs /\ same_end both64 /\ counted both64 (len vs) /\ len vs = 2 /\
  len both64 < 0x10000000000000000 /\ nofail (s_sched (cursor both64)) /\ map v_content vs = [data1; [x78; x79]] /\
  Forall (fun v => crc32_spec (v_content v) = r_crc (v_listing v)) vs.
Proof.
  assert (H : match fst (file cfg0 (cursor both64)), sights toy both64, directory_at both64, last_end both64 with
    | Ok f, Some vs, Some (front, (n, size, off)), Some (front0, _) => n = 2 /\ len vs = 2 /\ map v_content vs = [data1; [x78; x79]] /\
        Forall (fun v => crc32_spec (v_content v) = r_crc (v_listing v)) vs /\ none_after (le 4 0x06054b50) both64 (len front0) = true /\
        match read_end64 front0 with Some _ => True | None => False end
    | _, _, _, _ => False end).
  { vm_compute. split; [reflexivity|]. split; [reflexivity|]. split; [reflexivity|]. split; [repeat constructor|]. split; [reflexivity|exact I]. }
  destruct (fst (file cfg0 (cursor both64))) as [f| |]; [|exact (False_ind _ H)|exact (False_ind _ H)]. destruct (sights toy both64) as [vs|]; [|exact (False_ind _ H)].
  destruct (directory_at both64) as [[front [[n size] off]]|] eqn:DA; [|exact (False_ind _ H)]. destruct (last_end both64) as [[front0 ws]|] eqn:LE; [|exact (False_ind _ H)].
  destruct H as (-> & H2 & H3 & H4 & H5 & H6). exists f, vs. split; [reflexivity|]. split; [reflexivity|]. split.
  { intros fr d1 d2 n1 n2 sz o cl E. rewrite LE in E. injection E as <- _. split; [apply none_after_ok; [reflexivity|exact H5]|]. intro R. rewrite R in H6. exact (False_ind _ H6). }
  rewrite H2. split; [exists front, size, off; exact DA|]. split; [reflexivity|]. split; [vm_compute; reflexivity|]. split; [constructor|]. exact (conj H3 H4).
Qed.
