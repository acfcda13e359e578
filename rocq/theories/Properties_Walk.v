(** Property theorems: walks through the stream around decoders that go about it in their own way. *)
From Verif Require Import Base BaseFacts SpecFormat SpecCrc SpecArchive SpecRead SpecReadPolls SpecStream SpecStrict SpecExact SpecThrough SpecDecoder SpecWalk ZString Headers ExtraField
  Entry IO IOFacts Reader EntryReader StreamReader ReaderPolls DecoderPolls DecoderWalk Samples DecoderSamples DecoderWalkProofs FaultWalkProofs Properties_Decoder Properties_Through.
Import SpecReadPolls.

(** * C99. Going through an archive front to back, polling as one likes and leaving entries by [done] or [skip], around any decoder. *)
(** Where the bytes can be gone through at all, in the way [xs] of C68: the entries come one after the other, their polls hand
    over beginnings of their contents, and the walk ends with all of them, is given up, meets an error of the source, or calls [done] too early. *)
Theorem C99_taken cd D view inv cfg l s xs : decoder_ok cd D view inv -> len (s_data s) < 0x10000000000000000 ->
  goes cd (past (s_pos s) (s_data s)) xs ->
  let '(ys, o) := d_walk D cfg l s in
  Forall2 visited_as (firstn (length ys) xs) ys /\ Forall no_complaint ys /\
  match o with
  | None => True
  | Some (Ok _) => length ys = length xs
  | Some r => (exists c, In (RFail c) (s_sched s) /\ r = Err (UpstreamReadError (IoOther c))) \/
      r = Err EOFNotReached /\ exists ys0 y x, ys = ys0 ++ [y] /\ nth_error xs (length ys0) = Some x /\ told (sd_polls y) <> snd x
  end.
Proof. exact (fun OK L G => walk_takes cd D view inv OK cfg (s_data s) L _ xs G l s eq_refl eq_refl). Qed.
Print Assumptions C99_taken.
(** And a walk that comes to the directory without complaint has gone through what stands in the bytes. *)
Theorem C99_reported cd D view inv cfg l s ys u : decoder_ok cd D view inv -> len (s_data s) < 0x10000000000000000 ->
  d_walk D cfg l s = (ys, Some (Ok u)) -> Forall no_complaint ys ->
  exists xs, goes cd (past (s_pos s) (s_data s)) xs /\ Forall2 visited_as xs ys.
Proof. exact (fun OK L => walk_reads cd D view inv OK cfg (s_data s) L l s ys u eq_refl). Qed.
Print Assumptions C99_reported.

Definition stroller : list stay :=
  [{| sy_polls := [PollRead 1; PollReadVectored [0; 1]]; sy_done := false; sy_patience := 9 |};
   {| sy_polls := [PollRead 9; PollRead 9; PollRead 0; PollRead 9; PollRead 9; PollRead 9]; sy_done := true; sy_patience := 3 |};
   {| sy_polls := []; sy_done := true; sy_patience := 0 |}].
Definition halting_sample : source := {| s_data := sample; s_pos := 0; s_sched := repeat (RChunk 99) 3 ++ [RPending; RChunk 0; RPending; RChunk 0] ++ repeat (RChunk 99) 6 ++ [RPending; RChunk 9] |}.
Definition seen (x : list stayed * option (res unit)) := (map (fun y => (map snd (sd_polls y), sd_left y)) (fst x), snd x).
Example C99_case : len sample < 0x10000000000000000 /\ (exists xs, goes toy sample xs /\ map snd xs = [data1; [x78; x79]]) /\
  seen (d_walk biting cfg0 stroller halting_sample) =
    ([([RPend; RGot [x68]], Some false); ([RGot [x78]; RPend; RGot []; RGot [x79]; RGot []; RGot []], Some true)], Some (Ok tt)) /\
  snd (d_walk biting cfg0 (firstn 1 stroller ++ [{| sy_polls := [PollRead 9]; sy_done := true; sy_patience := 3 |}]) halting_sample) = Some (Err EOFNotReached) /\
  snd (d_walk biting cfg0 (firstn 1 stroller ++ [{| sy_polls := [PollRead 9]; sy_done := true; sy_patience := 0 |}]) halting_sample) = None.
Proof.
  split; [vm_compute; reflexivity|]. split; [destruct C68_case as (_ & _ & _ & X); exact X|]. vm_compute. repeat split; reflexivity.
Qed.
