(** Property theorems: data handed over compressed. *)
From Verif Require Import Base BaseFacts SpecCrc SpecFormat SpecArchive SpecRead SpecWrite SpecSession SpecHanded ZString ZDate Headers ExtraField Entry
  IO IOFacts EntryReader Writer Samples WriteSamples HandedProofs.

(** * C90. Compressing beforehand makes no difference. *)
(** Writing an entry whole is handing over its compressed data, with length and check value in the entry: in every state of the writer and
    whatever the sink does, the call ends the same and leaves the same. *)
Theorem C90_whole cd e d : enc_takes cd -> en_compression e <> Deflate64 ->
  exists z, compressed cd (en_compression e) d z /\ forall w, run_op cd (OpWhole e d) w = run_op cd (OpWholePre (described e d) z) w.
Proof. exact (whole_handed cd e d). Qed.
Print Assumptions C90_whole.
(** Of a stream this holds, on sinks without faults, if length and check value were in the entry already: for its local header has them. The
    compressed data may then be cut and flushed in any way. *)
Theorem C90_stream cd e body closed : enc_takes cd -> en_compression e <> Deflate64 -> describes e (fed_bytes body) ->
  exists z, stores cd (OpStream false e body closed) z /\
  forall body' l1 l2 sched sched', fed_bytes body' = z -> obliging sched -> obliging sched' ->
    Forall op_good (l1 ++ OpStream false e body closed :: l2) -> op_good (OpStream true e body' closed) ->
    let '(xs, r, w) := run_archive cd sched (l1 ++ OpStream false e body closed :: l2) in
    let '(xs', r', w') := run_archive cd sched' (l1 ++ OpStream true e body' closed :: l2) in
    len (w_bytes w) < 0x10000000000000000 -> len (w_bytes w') < 0x10000000000000000 ->
    map snd xs = map snd xs' /\ r = r' /\ w_bytes w = w_bytes w'.
Proof. exact (stream_handed cd e body closed). Qed.
Print Assumptions C90_stream.
(** Without that the local headers differ: the entry's own numbers stand in them, though the directories agree. *)
Theorem C90_local : exists e body body' z, stores toy (OpStream false e body true) z /\ fed_bytes body' = z /\
  let '(xs, r, w) := run_archive toy [] [OpStream false e body true] in
  let '(xs', r', w') := run_archive toy [] [OpStream true (described e (fed_bytes body)) body' true] in
  r = Ok tt /\ r' = Ok tt /\ map snd xs = map snd xs' /\ w_bytes w <> w_bytes w' /\ len (w_bytes w) = len (w_bytes w') /\
  drop (w_offset (snd (run_ops toy [OpStream false e body true] (zw_new [])))) (w_bytes w) = drop (w_offset (snd (run_ops toy [OpStream false e body true] (zw_new [])))) (w_bytes w').
Proof.
  exists (mk_entry (utf8 [x61]) (utf8 []) Deflate []), [SWriteAll [x68; x69]], [SWriteAll [x01]; SFlush; SWriteAll [x68; x01; x69; x00]], [x01; x68; x01; x69; x00].
  split; [|split; [reflexivity|]].
  - right. change [x01; x68; x01; x69; x00] with (([x01; x68; x01; x69] ++ []) ++ enc_finish toy tt).
    apply (comp_encoded toy Deflate LDefault [x68; x69] ([x01; x68; x01; x69] ++ []) tt); [discriminate|discriminate|].
    change [x68; x69] with (firstn (N.to_nat 2) [x68; x69] ++ []) at 1.
    eapply runs_write; [reflexivity|apply runs_nil].
  - vm_compute. repeat split; discriminate.
Qed.
Print Assumptions C90_local.

(** A whole entry and a stream between others, and the same with their data compressed beforehand and cut otherwise, over another sink. *)
Definition told2 : zentry := described (mk_entry (utf8 [x62]) (utf8 [x6b]) Deflate []) [x68; x69; x6a; x6b].
Definition packed1 : zentry := mk_entry (utf8 [x61]) (utf8 []) Deflate [XUnknown 0xCAFE 2 [x01; x02]].
Definition itself : list wop := [OpWhole entry1 [x07]; OpWhole packed1 [x68; x69]; OpStream false told2 [SWriteAll [x68]; SFlush; SWriteAll [x69; x6a; x6b]] true; OpComment [x63]].
Definition handed : list wop :=
  [OpWhole entry1 [x07]; OpWholePre (described packed1 [x68; x69]) [x01; x68; x01; x69; x00];
   OpStream true told2 [SWriteAll [x01; x68; x01; x69; x01]; SWriteAll [x6a; x01]; SFlush; SWriteAll [x6b; x00]] true; OpComment [x63]].
Example C90_case : enc_takes toy /\ en_compression packed1 <> Deflate64 /\ describes told2 (fed_bytes [SWriteAll [x68]; SFlush; SWriteAll [x69; x6a; x6b]]) /\
  Forall op_good itself /\ Forall op_good handed /\ obliging bumpy /\
  let '(xs, r, w) := run_archive toy [] itself in let '(xs', r', w') := run_archive toy bumpy handed in
  r = Ok tt /\ r' = Ok tt /\ map snd xs = map snd xs' /\ w_bytes w = w_bytes w' /\ 200 < len (w_bytes w).
Proof.
  split; [exact (proj1 toy_ok)|]. split; [discriminate|]. split; [split; reflexivity|].
  split; [repeat constructor; cbn; discriminate|]. split; [repeat constructor; cbn; discriminate|]. split; [repeat constructor; discriminate|].
  vm_compute. repeat split; reflexivity.
Qed.
