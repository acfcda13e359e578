(** What the ends of a careful relay tell. *)
From Verif Require Import Base BaseFacts SpecCrc SpecArchive SpecRead SpecWrite SpecRelay Headers Entry IO Reader ReaderPolls DecoderPolls Writer AwaitedWrites Piped Relay.

Section Care.
Context (heed : zentry -> bool).
(** the header tells the checksum of this content, as far as it is heeded, or does not *)
Definition sum_fits (z : zentry * bytes) : Prop := heed (fst z) = true -> crc32_spec (snd z) = en_crc32 (fst z).
Definition sum_fails (z : zentry * bytes) : Prop := heed (fst z) = true /\ crc32_spec (snd z) <> en_crc32 (fst z).
(** what an entry with this content, that was left behind, is to the writer *)
Definition care_amounts (y : relay_plan) (z : zentry * bytes) (x : zentry * relayed) (part : list (wop * option (res unit))) : Prop :=
  fst x = fst z /\
  match rp_as y (fst z), snd x with
  | None, PassedBy => part = []
  | Some e, Relayed r => sum_fits z /\ exists body, fed_bytes body = snd z /\ part = [(OpStream false e body true, r)]
  | Some e, CutOff r => (forall u, r <> Some (Ok u)) /\ exists body closed, prefix (fed_bytes body) (snd z) /\ part = [(OpStream false e body closed, r)]
  | Some e, Torn => sum_fails z /\ exists body, fed_bytes body = snd z /\ part = [(OpStream false e body false, Some (Ok tt))]
  | _, _ => False
  end.
(** entry for entry *)
Inductive cares_as : list relay_plan -> list (zentry * bytes) -> list (zentry * relayed) -> list (list (wop * option (res unit))) -> Prop :=
| ca_none l : cares_as l [] [] []
| ca_entry y l z es x xs part parts : care_amounts y z x part -> cares_as l es xs parts -> cares_as (y :: l) (z :: es) (x :: xs) (part :: parts).
(** all is well but some checksums *)
Definition care_well (z : zentry * bytes) (y : relay_plan) : zentry * relayed :=
  (fst z, match rp_as y (fst z) with Some _ => if negb (heed (fst z)) || (crc32_spec (snd z) =? en_crc32 (fst z)) then Relayed (Some (Ok tt)) else Torn | None => PassedBy end).
Fixpoint care_ideal (es : list (zentry * bytes)) (l : list relay_plan) : list (zentry * relayed) :=
  match es, l with
  | z :: es, y :: l => care_well z y :: care_ideal es l
  | _, _ => []
  end.
End Care.
