(** Property C80: what an archive that was cut short still gives. *)
From Verif Require Import Base BaseFacts SpecFormat SpecArchive SpecRead SpecWrite SpecStream SpecStrict SpecExact SpecThrough SpecSalvage ZString Headers ExtraField Entry IO IOFacts Reader
  EntryReader StreamReader Writer Inflate InflateFacts InflateEnds Samples WriteSamples ExactProofs ThroughProofs SalvageProofs.

(** * C80. Whatever lies before the cut is recovered, and the walk does not take the cut for the end of the archive. *)
Theorem C80_cut cd cfg pl a xs n s fuel : dec_local cd -> len a < 0x10000000000000000 -> goes cd a xs ->
  nofail (s_sched s) -> s_data s = upto n a -> s_pos s = 0 -> len a < 30 * N.of_nat fuel ->
  exists before after l ys zs r, xs = before ++ after /\ entries_here cd a before l /\ len a <= len l + n /\
    gather cd cfg pl fuel 0 s = (ys ++ zs, r) /\ picked pl 0 before ys /\
    match after with
    | [] => zs = [] /\ r = if len a + 4 <=? n + len l then Ok tt else Err (UpstreamReadError UnexpectedEof)
    | x :: _ => (exists tail, entry_here cd l (fst x) (snd x) tail /\ n + len tail < len a) /\ gave_up cfg r /\
        (zs = [] \/ exists y, zs = [y] /\ remnant l (n + len l - len a) x y)
    end.
Proof. exact (cut_walk cd cfg pl a xs n s fuel). Qed.
Print Assumptions C80_cut.
(** So a walk that comes to the end has found everything there was. *)
Theorem C80_complete cd cfg pl a xs n s fuel ys : dec_local cd -> len a < 0x10000000000000000 -> goes cd a xs ->
  nofail (s_sched s) -> s_data s = upto n a -> s_pos s = 0 -> len a < 30 * N.of_nat fuel ->
  pick cd cfg pl fuel 0 s = Ok ys -> picked pl 0 xs ys.
Proof. exact (complete_walk cd cfg pl a xs n s fuel ys). Qed.
Print Assumptions C80_complete.
(** The caller is that of [C68], but for keeping what it had. *)
Theorem C80_same cd cfg pl n i s ys : pick cd cfg pl n i s = Ok ys <-> gather cd cfg pl n i s = (ys, Ok tt).
Proof. exact (gather_pick cd cfg pl n i s ys). Qed.
Print Assumptions C80_same.
(** DEFLATE is as is asked of decoders. *)
Theorem C80_deflate : dec_local flate.
Proof. exact flate_local. Qed.
Print Assumptions C80_deflate.
(** What the writer makes, and can be told apart front to back, is such an archive. *)
Theorem C80_written cd sched l : codec_ok cd -> Forall op_good l -> Forall (fun o => dropped o = false) l ->
  let '(xs, r, w) := run_archive cd sched l in
  r = Ok tt -> Forall (fun x => worked (snd x) = true) xs -> len (w_bytes w) < 0x10000000000000000 ->
  Forall (fun x => streamable cd (snd x)) (succeeded false xs) -> succeeded false xs <> [] ->
  exists ts, goes cd (w_bytes w) ts /\ Forall2 (told_of cd) (succeeded false xs) ts.
Proof. exact (written_goes cd sched l). Qed.
Print Assumptions C80_written.

(** an entry stored under "a/b" with a field, a deflated one that was streamed, and another stored one *)
Definition parcel : list wop :=
  [OpWhole (mk_entry (utf8 [x61; x2f; x62]) (utf8 []) Stored [XUnknown 0xCAFE 2 [x01; x02]]) [x68; x69; x21];
   OpStream false (mk_entry (utf8 [x63]) (utf8 []) Deflate []) [SWriteAll [x01; x02]; SWriteAll [x03]] true;
   OpWhole (mk_entry (utf8 [x64]) (utf8 []) Stored []) [x07; x08]].
Definition parcel_bytes : bytes := w_bytes (snd (run_archive flate [] parcel)).
Definition cut_at (n : N) : source := {| s_data := upto n parcel_bytes; s_pos := 0; s_sched := [RPending; RChunk 5; RChunk 0; RPending] |}.
Definition had (n : N) : list (bytes * bytes) * res unit :=
  let '(l, r) := gather flate cfg0 everything 10 0 (cut_at n) in (map (fun x => (zs_raw (en_filename (fst x)), snd x)) l, r).
Definition first_of : bytes * bytes := ([x61; x2f; x62], [x68; x69; x21]).
(** cut in a name, in stored data, in the fields of a header, in compressed data, behind two entries, and not at all *)
Example C80_case : (exists ts, goes flate parcel_bytes ts /\ map snd ts = [[x68; x69; x21]; [x01; x02; x03]; [x07; x08]]) /\ len parcel_bytes = 435 /\
  nofail (s_sched (cut_at 40)) /\
  had 32 = ([([x61; x2f], [])], Err (UpstreamReadError UnexpectedEof)) /\
  had 40 = ([([x61; x2f; x62], [x68])], Err (UpstreamReadError UnexpectedEof)) /\
  had 80 = ([first_of], Panic POverflow) /\
  had 105 = ([first_of], Err (UpstreamReadError InvalidData)) /\
  had 141 = ([first_of; ([x63], [x01; x02; x03])], Err (UpstreamReadError UnexpectedEof)) /\
  had 435 = ([first_of; ([x63], [x01; x02; x03]); ([x64], [x07; x08])], Ok tt).
Proof.
  split; [|split; [vm_compute; reflexivity|split; [repeat constructor|repeat (split; [vm_compute; reflexivity|]); vm_compute; reflexivity]]].
  assert (H : match pick flate cfg0 everything 9 0 (cursor parcel_bytes) with Ok ys => map snd ys = [[x68; x69; x21]; [x01; x02; x03]; [x07; x08]] | _ => False end)
    by (vm_compute; reflexivity).
  destruct (pick flate cfg0 everything 9 0 (cursor parcel_bytes)) as [ys|e|p] eqn:P; [|destruct H|destruct H].
  assert (L : len parcel_bytes < 0x10000000000000000) by (vm_compute; reflexivity).
  assert (SS : stands (cursor parcel_bytes) parcel_bytes 0) by (split; [reflexivity|split; [reflexivity|constructor]]).
  destruct (pick_reads flate cfg0 everything parcel_bytes L 9 0 (cursor parcel_bytes) 0 ys SS P) as (xs & G & Q). assert (P0 : forall l, past 0 l = l) by reflexivity.
  rewrite P0 in G. exists xs. split; [exact G|].
  apply picked_everything in Q. subst ys. exact H.
Qed.
(** the writer's premises are met *)
Example C80_case_written : codec_ok flate /\ Forall op_good parcel /\ Forall (fun o => dropped o = false) parcel /\
  let '(xs, r, w) := run_archive flate [] parcel in
  r = Ok tt /\ Forall (fun x => worked (snd x) = true) xs /\ len (w_bytes w) < 0x10000000000000000 /\
  Forall (fun x => streamable flate (snd x)) (succeeded false xs) /\ length (succeeded false xs) = 3%nat.
Proof.
  split; [exact flate_ok|]. split; [repeat constructor; cbn; discriminate|]. split; [repeat constructor|].
  assert (S : Forall (fun x => streamable flate (snd x)) (map (pair false) parcel)) by (repeat constructor; discriminate).
  assert (H : let '(xs, r, w) := run_archive flate [] parcel in
    r = Ok tt /\ Forall (fun x => worked (snd x) = true) xs /\ (len (w_bytes w) <? 0x10000000000000000) = true /\ succeeded false xs = map (pair false) parcel).
  { vm_compute. split; [reflexivity|]. split; [repeat constructor|]. split; reflexivity. }
  destruct (run_archive flate [] parcel) as [[xs r] w]. destruct H as (H1 & H2 & H3 & H4). apply N.ltb_lt in H3. rewrite H4.
  split; [exact H1|]. split; [exact H2|]. split; [exact H3|]. split; [exact S|reflexivity].
Qed.
