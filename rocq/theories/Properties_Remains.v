(** Property C107: archives that were cut short, around any decoder. *)
From Verif Require Import Base BaseFacts SpecFormat SpecCrc SpecArchive SpecRead SpecReadPolls SpecWrite SpecStream SpecStrict SpecExact SpecThrough SpecDecoder SpecWalk SpecSalvage SpecAwake SpecEndure
  SpecMade SpecRemains ZString Headers ExtraField Entry IO IOFacts Reader EntryReader StreamReader Writer ReaderPolls DecoderPolls DecoderWalk Inflate InflateGrows Samples DecoderSamples AwakeSamples MadeRead
  ExactTop RemainsProofs Properties_Through.
Import SpecReadPolls.

(** * C107. Walks that do not come to the end, and archives that were cut short, around any decoder and over any source. *)
(** Whatever comes of a walk, and over whatever bytes: what it has left behind stands in the bytes, one entry after the other,
    and so does the beginning of the one it was at. It says that it is through only in front of a directory. *)
Theorem C107_passed cd D view inv cfg l s ys o : decoder_ok cd D view inv -> len (s_data s) < 0x10000000000000000 ->
  d_walk D cfg l s = (ys, o) -> Forall heeds ys ->
  exists xs rest ys1 zs, ys = ys1 ++ zs /\ entries_here cd (past (s_pos s) (s_data s)) xs rest /\ Forall2 visited_as xs ys1 /\ Forall (fun y => sd_left y <> None) ys1 /\
    (zs = [] \/ exists y, zs = [y] /\ sd_left y = None /\ halfway cd rest y) /\
    (forall u, o = Some (Ok u) -> zs = [] /\ exists b, rest = le 4 0x02014b50 ++ b).
Proof. exact (fun OK L => walk_passed cd D view inv OK cfg (s_data s) L l s ys o eq_refl). Qed.
Print Assumptions C107_passed.
(** Of an archive that was cut short the walk passes entries that lie before the cut, as they are; of one more there may be a
    beginning; if that one was left, the cut went through it. The cut is not taken for the end of the archive. *)
Theorem C107_cut cd D view inv cfg a xs n l s ys o : decoder_ok cd D view inv -> dec_local cd -> dec_grows cd -> len a < 0x10000000000000000 -> goes cd a xs ->
  s_data s = upto n a -> s_pos s = 0 -> d_walk D cfg l s = (ys, o) -> Forall heeds ys ->
  exists before after l' ys1 zs, xs = before ++ after /\ entries_here cd a before l' /\ len a <= len l' + n /\ ys = ys1 ++ zs /\ Forall2 visited_as before ys1 /\
    (zs = [] \/ exists x more y tail, zs = [y] /\ after = x :: more /\ entry_here cd l' (fst x) (snd x) tail /\ begins (snd x) y /\
      (forall t m, read_top l' t m -> len a <= len m + n -> sd_entry y = fst x) /\ (sd_left y <> None -> n + len tail < len a)) /\
    (forall u, o = Some (Ok u) -> after = [] /\ zs = [] /\ len a + 4 <= n + len l').
Proof. exact (walk_cut cd D view inv cfg a xs n l s ys o). Qed.
Print Assumptions C107_cut.
Theorem C107_complete cd D view inv cfg a xs n l s ys u : decoder_ok cd D view inv -> dec_local cd -> dec_grows cd -> len a < 0x10000000000000000 -> goes cd a xs ->
  s_data s = upto n a -> s_pos s = 0 -> d_walk D cfg l s = (ys, Some (Ok u)) -> Forall heeds ys -> Forall2 visited_as xs ys.
Proof. exact (walk_complete cd D view inv cfg a xs n l s ys u). Qed.
Print Assumptions C107_complete.
(** And a caller with the patience that [C106] asks for passes all that lies before the cut, unless the source failed. *)
Theorem C107_recovered cd D view inv cfg a before l' n l1 l2 s : decoder_ok cd D view inv -> decoder_lively D -> dec_local cd -> len a < 0x10000000000000000 ->
  entries_here cd a before l' -> l' <> [] -> len a <= len l' + n -> s_data s = upto n a -> s_pos s = 0 ->
  Forall2 (fun x y => thorough (troubles (s_sched s)) (snd x) y) before l1 ->
  (exists ys1 ys2 o, d_walk D cfg (l1 ++ l2) s = (ys1 ++ ys2, o) /\ Forall2 visited_as before ys1 /\ Forall2 (fun y z => sd_left z = Some (sy_done y)) l1 ys1) \/
  exists ys k, d_walk D cfg (l1 ++ l2) s = (ys, Some (Err (UpstreamReadError (IoOther k)))) /\ In (RFail k) (s_sched s).
Proof. exact (fun OK LV => walk_recovers cd D view inv OK LV cfg a before l' n l1 l2 s). Qed.
Print Assumptions C107_recovered.
(** An archive made by the writer in any of its ways, around any encoder, is such an archive. *)
Theorem C107_made cd xs body z d : codec_ok cd -> made cd xs body z d -> Forall (fun x => dropped (fst x) = false) xs -> Forall (fun x => worked (snd x) = true) xs ->
  len d < 0x10000000000000000 -> Forall (fun x => streamable cd (snd x)) (succeeded false xs) -> succeeded false xs <> [] ->
  exists es, goes cd d es /\ Forall2 (written_as cd) (succeeded false xs) es.
Proof. exact (made_goes cd xs body z d). Qed.
Print Assumptions C107_made.
(** DEFLATE takes back nothing. *)
Theorem C107_deflate : dec_grows flate.
Proof. exact flate_grows. Qed.
Print Assumptions C107_deflate.

Lemma toy_two (P : bytes -> Prop) : P [] -> (forall x, P [x]) -> (forall x y l, P l -> P (x :: y :: l)) -> forall l, P l.
Proof. intros A B C l. enough (P l /\ forall x, P (x :: l)) by tauto. induction l as [|y l [I J]]; split; auto. Qed.
Lemma toy_local : dec_local toy.
Proof.
  intros c w out k _. cbn [toy dec]. revert out k. induction w as [|x|x y w IH] using toy_two; intros out k H; [discriminate H|destruct x; cbn [toy_dec] in H; try discriminate H|].
  - injection H as <- <-. split; [reflexivity|]. reflexivity.
  - destruct x; cbn [toy_dec] in H; try discriminate H.
    + injection H as <- <-. split; [unfold len; cbn [length]; lia|reflexivity].
    + destruct (toy_dec w) as [o [j|]]; [|discriminate H]. destruct (IH o j eq_refl) as [L R]. injection H as <- <-. split; [unfold len in *; cbn [length]; lia|]. intro rest.
      unfold upto in *. replace (N.to_nat (j + 2)) with (Datatypes.S (Datatypes.S (N.to_nat j))) by lia. cbn [firstn app toy_dec]. now rewrite R.
Qed.
Lemma toy_grows : dec_grows toy.
Proof.
  intros c w rest _. cbn [toy dec]. induction w as [|x|x y w IH] using toy_two; [now eexists|destruct x; now eexists|].
  destruct x; cbn [app toy_dec]; try (now eexists). destruct (toy_dec w) as [o j], (toy_dec (w ++ rest)) as [o' j']. destruct IH as (q & E). cbn [fst] in *. exists q. now rewrite E.
Qed.

(** a source that waits now and then, over the first [n] bytes of the sample *)
Definition torn (n : N) : source := {| s_data := upto n sample; s_pos := 0; s_sched := [RPending; RChunk 7; RChunk 0; RPending] |}.
Definition idler : stay := {| sy_polls := [PollRead 2; PollRead 2]; sy_done := false; sy_patience := 40 |}.
Definition keen : stay := {| sy_polls := repeat (PollRead 1) 9; sy_done := true; sy_patience := 40 |}.
Definition met (n : N) := let '(ys, o) := d_walk biting cfg0 [idler; keen; idler] (torn n) in (map (fun y => (told (sd_polls y), sd_left y)) ys, o).
Definition ended_early : option (res unit) := Some (Err (UpstreamReadError UnexpectedEof)).
(** cut in stored data, in a header, in compressed data, in a data descriptor, in the signature of the directory, and behind it *)
Example C107_case : decoder_ok toy biting bite_view bite_inv /\ decoder_lively biting /\ dec_local toy /\ dec_grows toy /\ len sample < 0x10000000000000000 /\
  (exists xs, goes toy sample xs /\ map snd xs = [data1; [x78; x79]]) /\
  map met [33; 50; 70; 80; 90; 92] =
    [([([x68; x69], Some false)], ended_early); ([(data1, Some false)], ended_early); ([(data1, Some false); ([x78], None)], ended_early);
     ([(data1, Some false); ([x78; x79], None)], ended_early); ([(data1, Some false); ([x78; x79], Some true)], ended_early);
     ([(data1, Some false); ([x78; x79], Some true)], Some (Ok tt))] /\
  Forall heeds (fst (d_walk biting cfg0 [idler; keen; idler] (torn 70))) /\ ~ Forall no_complaint (fst (d_walk biting cfg0 [idler; keen; idler] (torn 70))).
Proof.
  split; [exact biting_ok|]. split; [exact biting_lively|]. split; [exact toy_local|]. split; [exact toy_grows|]. split; [vm_compute; reflexivity|].
  split; [destruct C68_case as (_ & _ & _ & X); exact X|]. split; [vm_compute; reflexivity|]. vm_compute fst. split.
  - repeat constructor; intro X; [|now elim X]. intro Y. repeat match goal with H : Exists _ _ |- _ => inversion H; clear H; subst end; contradiction.
  - intro X. inversion X as [|? ? _ Y]; subst. inversion Y as [|? ? Z _]; subst. apply Z. right. left. now right.
Qed.
(** what [C107_recovered] asks for *)
Example C107_recovered_case : exists x, entries_here toy sample [x] (past 34 sample) /\ snd x = data1 /\ past 34 sample <> [] /\ len sample <= len (past 34 sample) + 70 /\
  Forall2 (fun x y => thorough (troubles (s_sched (torn 70))) (snd x) y) [x] [idler].
Proof.
  assert (F : match stream_next cfg0 (cursor sample) with
    | (Ok (Some rd), s1) => s_pos s1 = 31 /\ en_compression (rd_entry rd) = Stored /\ en_data_descriptor (rd_entry rd) = false /\ en_compressed_size (rd_entry rd) = 3
    | _ => False end) by (vm_compute; repeat split; reflexivity).
  destruct (stream_next cfg0 (cursor sample)) as [[[rd|]|e|e] s1] eqn:NX; try contradiction. destruct F as (P & C & DD & CS).
  pose proof (next_reads _ _ _ _ NX) as (_ & t & R & T & Rd & _ & _). rewrite P in R. change (past (s_pos (cursor sample)) (s_data (cursor sample))) with sample in R.
  change (past 31 (s_data (cursor sample))) with (past 31 sample) in R.
  exists (rd_entry rd, data1). split.
  - eapply eh_entry; [|apply eh_none]. apply (entry_stands toy sample _ _ _ t (past 31 sample) 3 R T Rd); rewrite ?C; unfold data_of; rewrite ?DD, ?CS; [vm_compute; reflexivity..|].
    replace (past 34 sample) with (past 3 (past 31 sample)) by (vm_compute; reflexivity). constructor.
  - split; [reflexivity|]. split; [vm_compute; discriminate|]. split; [vm_compute; discriminate|]. constructor; [|constructor]. vm_compute. repeat constructor.
Qed.
