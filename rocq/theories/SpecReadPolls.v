(** What polling a reader amounts to. *)
From Verif Require Import Base IO ReaderPolls.

(** the bytes the polls handed over *)
Definition told (ps : list (read_call * rpoll)) : bytes :=
  concat (map (fun x => match snd x with RGot b => b | _ => [] end) ps).
(** did the caller offer room? *)
Definition has_room (c : read_call) : Prop :=
  match c with PollRead n => 0 < n | PollReadVectored ns => exists n, In n ns /\ 0 < n end.
(** a poll that was offered room and says that there is nothing more *)
Definition at_end (x : read_call * rpoll) : Prop := has_room (fst x) /\ snd x = RGot [].
