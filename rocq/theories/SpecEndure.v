(** Sources that fail in between. *)
From Verif Require Import Base IO.

(** how often a source gives nothing: it waits, or fails *)
Definition troubles (l : list revent) : nat := length (filter (fun e => match e with RChunk _ => false | _ => true end) l).
