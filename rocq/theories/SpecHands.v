(** Archives that are copied from hand to hand. *)
From Verif Require Import Base BaseFacts SpecFormat SpecArchive SpecRead SpecWrite SpecEncoder SpecBlame SpecExact SpecThrough SpecStream ZString Headers Entry IO Reader EntryReader ReaderPolls DecoderPolls SpecDecoder Writer StreamPolls EncoderPolls AwaitedWrites Piped Relay SpecRelay.

(** the entries made can be told apart without a directory: they are compressed *)
Definition relay_packs (y : relay_plan) : Prop := forall z e, rp_as y z = Some e -> en_compression e <> Stored.
(** of the entries that lie there those that the caller wants, as what it wants them *)
Fixpoint wanted (es : list (zentry * bytes)) (l : list relay_plan) : list (zentry * bytes) :=
  match es, l with
  | z :: es, y :: l => match rp_as y (fst z) with Some e => (e, snd z) :: wanted es l | None => wanted es l end
  | _, _ => []
  end.
(** the entry ended well: it was passed by, or copied *)
Definition all_well (x : zentry * relayed) : Prop := match snd x with PassedBy => True | Relayed (Some (Ok _)) => True | _ => False end.
(** what lies in the new archive for an entry that was wanted *)
Definition kept_as (x y : zentry * bytes) : Prop :=
  snd y = snd x /\ stored_bytes (en_filename (fst y)) = stored_bytes (en_filename (fst x)) /\ en_compression (fst y) = en_compression (fst x) /\ en_date (fst y) = en_date (fst x) /\
  (texts_clear (fst x) -> same_text (en_filename (fst x)) (en_filename (fst y))).
(** [l] without some of its elements *)
Inductive some_of {A} : list A -> list A -> Prop :=
| so_none : some_of [] []
| so_left x l m : some_of l m -> some_of l (x :: m)
| so_kept x l m : some_of l m -> some_of (x :: l) (x :: m).
(** From hand to hand: each has the archive from the one before as a stream, over a source of its own, and makes the next of it, with a decoder, an encoder, plans and a sink of its own, all of which ended well and
    something was copied. [all]: nobody passed anything by. *)
Inductive handed (cd : codec) (all : bool) (a : bytes) : nat -> bytes -> Prop :=
| handed_first : handed cd all a 0 a
| handed_on n b D view inv (E : engine cd) eview k cfg sched l s xs u outs w w' : handed cd all a n b ->
    decoder_ok cd D view inv -> engine_ok cd E eview -> Forall relay_good l -> Forall relay_packs l -> len b < 0x10000000000000000 -> s_data s = b -> s_pos s = 0 ->
    relay cd D E k cfg l s (zw_new sched) = (xs, Some (Ok u), outs, w) -> Forall all_well xs -> Exists (fun x => relay_gives x = true) xs -> (all = true -> Forall (fun x => relay_gives x = true) xs) ->
    zw_close w = (Ok tt, w') -> len (w_bytes w') < 0x10000000000000000 -> handed cd all a (S n) (w_bytes w').
