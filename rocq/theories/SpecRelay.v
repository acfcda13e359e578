(** What the ends of a relay tell. *)
From Verif Require Import Base BaseFacts SpecArchive SpecRead SpecWrite SpecBlame SpecExact SpecThrough SpecStream SpecRemains Headers Entry IO Reader EntryReader ReaderPolls DecoderPolls SpecWalk Writer StreamPolls EncoderPolls AwaitedWrites SpecLively SpecOrdinary Piped Relay.

(** the caller means well: buffers with room that do not ask for 2^64 bytes in all, and entries as a caller makes them *)
Definition relay_good (y : relay_plan) : Prop :=
  Forall (fun n => 0 < n) (rp_buffers y) /\ fold_right N.add 0 (rp_buffers y) < 0x10000000000000000 /\ forall z e, rp_as y z = Some e -> entry_fine e.
(** what an entry with this content, that was left behind, is to the writer *)
Definition relay_amounts (y : relay_plan) (z : zentry * bytes) (x : zentry * relayed) (part : list (wop * option (res unit))) : Prop :=
  fst x = fst z /\
  match rp_as y (fst z), snd x with
  | None, PassedBy => part = []
  | Some e, Relayed r => exists body, fed_bytes body = snd z /\ part = [(OpStream false e body true, r)]
  | Some e, CutOff r => (forall u, r <> Some (Ok u)) /\ exists body closed, prefix (fed_bytes body) (snd z) /\ part = [(OpStream false e body closed, r)]
  | _, _ => False
  end.
(** one that was not left behind: no new entry comes of it *)
Definition relay_lost (part : list (wop * option (res unit))) : Prop :=
  part = [] \/ exists e body closed r, part = [(OpStream false e body closed, r)] /\ (closed = false \/ forall u, r <> Some (Ok u)).
Definition relay_gives (x : zentry * relayed) : bool := match snd x with Relayed (Some (Ok _)) => true | _ => false end.
(** how many entries those before this one left *)
Definition relay_place (p : nat) (xs : list (zentry * relayed)) : nat := length (filter relay_gives (firstn p xs)).
(** entry for entry *)
Inductive relays_as : list relay_plan -> list (zentry * bytes) -> list (zentry * relayed) -> list (list (wop * option (res unit))) -> Prop :=
| ra_none l : relays_as l [] [] []
| ra_entry y l z es x xs part parts : relay_amounts y z x part -> relays_as l es xs parts -> relays_as (y :: l) (z :: es) (x :: xs) (part :: parts).
(** The caller has patience for what the source makes it wait. *)
Definition relay_patient (m : nat) (z : zentry * bytes) (y : relay_plan) : Prop :=
  match rp_as y (fst z) with Some _ => (m + length (snd z) < length (rp_buffers y))%nat | None => True end /\ (m + length (snd z) < rp_patience y)%nat.
(** the writer takes the entries that are made (C52) *)
Definition relay_handy (y : relay_plan) : Prop := forall z e, rp_as y z = Some e -> en_compression e <> Deflate64 /\ SpecOrdinary.roomy e.
(** Nobody but the sink and the caller is to blame for how a writer ends. *)
Definition relay_blamed (k : nat) (sched : list wevent) (z : zentry * bytes) (x : zentry * relayed) : Prop :=
  match snd x with
  | Relayed (Some (Err e)) | CutOff (Some (Err e)) => (exists io, e = UpstreamReadError io) /\ ~ obliging sched
  | Relayed (Some (Panic _)) | CutOff (Some (Panic _)) => False
  | Relayed None | CutOff None => (k <= SpecLively.waits sched + length (snd z))%nat
  | _ => True
  end.
(** all is well *)
Definition relay_well (z : zentry * bytes) (y : relay_plan) : zentry * relayed :=
  (fst z, match rp_as y (fst z) with Some _ => Relayed (Some (Ok tt)) | None => PassedBy end).
Fixpoint relay_ideal (es : list (zentry * bytes)) (l : list relay_plan) : list (zentry * relayed) :=
  match es, l with
  | z :: es, y :: l => relay_well z y :: relay_ideal es l
  | _, _ => []
  end.
