(** Property C57. *)
From Verif Require Import Base BaseFacts SpecFormat SpecCrc SpecArchive SpecRead ZString ZDate Headers ExtraField Entry IO IOFacts Reader EntryReader StreamReader
  Samples Features SpecFeatures FeatureProofs.

(** * C57. A build with fewer compression methods, or for a narrower target, reads an archive as the full build does or refuses it. *)
(** The full 64-bit build is the model that all other properties are about. *)
Theorem C57_whole cfg s : b_file whole_build cfg s = file cfg s /\ b_stream_next whole_build cfg s = stream_next cfg s.
Proof. exact (whole_same cfg s). Qed.
Print Assumptions C57_whole.
(** A smaller build opens an archive exactly if the full one does, the directory fits and every method is there; and then it says
    the same about it. *)
Theorem C57_opens b cfg s f s' : b_usize_max b <= 18446744073709551615 ->
  b_file b cfg s = (Ok f, s') <->
  file cfg s = (Ok f, s') /\ countable b (len (f_entries f)) /\ holdable b cfg (len (f_entries f)) /\
  Forall (fun e => compiled b (en_compression (st_entry e))) (f_entries f).
Proof. exact (opens_iff b cfg s f s'). Qed.
Print Assumptions C57_opens.
(** Otherwise it says what is missing: the target, the memory, or the first method that is not compiled in. *)
Theorem C57_refuses_partial b cfg s f : b_usize_max b <= 18446744073709551615 -> fst (file cfg s) = Ok f ->
  (~ countable b (len (f_entries f)) -> fst (b_file b cfg s) = Err TargetZip64NotSupported) /\
  (countable b (len (f_entries f)) -> ~ holdable b cfg (len (f_entries f)) -> fst (b_file b cfg s) = Panic PCapacity) /\
  (forall m, countable b (len (f_entries f)) -> holdable b cfg (len (f_entries f)) -> first_missing b (f_entries f) m ->
     fst (b_file b cfg s) = Err (CompressionNotSupported (compression_to m))).
Proof. exact (refused_how b cfg s f). Qed.
Print Assumptions C57_refuses_partial.
Definition bits32 : build := {| b_has m := compression_eqb m Deflate; b_usize_max := 4294967295 |}.
Definition only_stored : build := {| b_has _ := false; b_usize_max := 18446744073709551615 |}.
Example C57_case :
  match file cfg0 (cursor sample), b_file bits32 cfg0 (cursor sample) with
  | (Ok f, _), (Ok g, _) => map (fun e => en_compression (st_entry e)) (f_entries f) = [Stored; Deflate] /\ f = g
  | _, _ => False
  end /\
  fst (b_file only_stored cfg0 (cursor sample)) = Err (CompressionNotSupported 8) /\
  fst (b_file {| b_has _ := true; b_usize_max := 255 |} cfg0 (cursor sample)) = Panic PCapacity /\
  fst (b_file {| b_has _ := true; b_usize_max := 1 |} cfg0 (cursor sample)) = Err TargetZip64NotSupported.
Proof. vm_compute. repeat split; reflexivity. Qed.
(** Front to back: the same entries, up to the first whose method is not compiled in. *)
Theorem C57_stream b cfg s r s' : b_stream_next b cfg s = (Ok r, s') <->
  stream_next cfg s = (Ok r, s') /\ match r with Some x => compiled b (en_compression (rd_entry x)) | None => True end.
Proof. exact (stream_iff b cfg s r s'). Qed.
Print Assumptions C57_stream.
Theorem C57_stream_refuses b cfg s x : fst (stream_next cfg s) = Ok (Some x) -> ~ compiled b (en_compression (rd_entry x)) ->
  fst (b_stream_next b cfg s) = Err (CompressionNotSupported (compression_to (en_compression (rd_entry x)))).
Proof. exact (stream_refused b cfg s x). Qed.
Print Assumptions C57_stream_refuses.
Example C57_stream_case :
  match b_stream_next only_stored cfg0 (cursor sample) with
  | (Ok (Some x), _) => en_compression (rd_entry x) = Stored
  | _ => False
  end /\
  match stream_next cfg0 (cursor (drop 34 sample)) with (Ok (Some x), _) => en_compression (rd_entry x) = Deflate | _ => False end /\
  fst (b_stream_next only_stored cfg0 (cursor (drop 34 sample))) = Err (CompressionNotSupported 8).
Proof. vm_compute. repeat split; reflexivity. Qed.
(** A refusal need not be an error: 98 bytes that claim many entries panic on 32 bits where they are an error on 64. *)
Theorem C57_refuted : exists b d, b_usize_max b = 4294967295 /\ len d = 98 /\
  fst (file cfg0 (cursor d)) = Err (UpstreamReadError UnexpectedEof) /\ fst (b_file b cfg0 (cursor d)) = Panic PCapacity.
Proof.
  exists bits32, (zip64_end 44 45 45 0 0 20000000 20000000 0 98 ++ zip64_end_locator 0 0 1 ++ end_record 0 0 0xFFFF 0xFFFF 0xFFFFFFFF 0xFFFFFFFF 0).
  split; [reflexivity|]. split; [vm_compute; reflexivity|]. split; vm_compute; reflexivity.
Qed.
Print Assumptions C57_refuted.
