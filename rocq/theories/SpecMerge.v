(** Where the entries of several streams come to lie in one archive. *)
From Verif Require Import Base BaseFacts SpecArchive SpecRead SpecWrite SpecBlame SpecExact SpecThrough SpecStream SpecRemains SpecSalvage Headers Entry IO IOFacts Reader EntryReader ReaderPolls DecoderPolls SpecWalk SpecAwake Writer StreamPolls EncoderPolls AwaitedWrites SpecLively SpecOrdinary Piped Relay SpecRelay.

(** the caller means well with each, and none has 2^64 bytes *)
Definition merge_good (js : list (list relay_plan * source)) : Prop := Forall (fun j => Forall relay_good (fst j) /\ len (s_data (snd j)) < 0x10000000000000000) js.
(** how many entries came of all the streams *)
Definition merge_count (rs : list (list (zentry * relayed) * option (res unit))) : nat := list_sum (map (fun r => length (filter relay_gives (fst r))) rs).
(** how many came of those before the [p]th of the [i]th stream *)
Definition merge_place (rs : list (list (zentry * relayed) * option (res unit))) (i p : nat) : nat :=
  merge_count (firstn i rs) + match nth_error rs i with Some (xs, _) => relay_place p xs | None => 0 end.
(** The caller has patience for the stream, and for the sink with each of its entries. *)
Definition merge_patient (cd : codec) (k : nat) (sched : list wevent) (j : list relay_plan * source) (es : list (zentry * bytes)) : Prop :=
  goes cd (past (s_pos (snd j)) (s_data (snd j))) es /\ (length es < length (fst j))%nat /\ Forall2 (relay_patient (delays (s_sched (snd j)))) es (firstn (length es) (fst j)) /\
  nofail (s_sched (snd j)) /\ Forall (fun x => (SpecLively.waits sched + length (snd x) < k)%nat) es.
(** The stream holds these entries and then anything, and the caller has patience for them. *)
Definition merge_begins (cd : codec) (j : list relay_plan * source) (es : list (zentry * bytes)) : Prop :=
  (exists rest, entries_here cd (past (s_pos (snd j)) (s_data (snd j))) es rest) /\ (length es <= length (fst j))%nat /\ Forall2 (relay_patient (delays (s_sched (snd j)))) es (firstn (length es) (fst j)) /\
  nofail (s_sched (snd j)).
