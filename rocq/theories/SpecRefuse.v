(** Calls of the writer that are refused before they have written anything. *)
From Verif Require Import Base SpecWrite SpecSession Headers Entry IO EntryReader Writer.

(** An error that is not the sink's, or a panic; and not a byte more than before. *)
Definition refused (r : res unit) (w w' : world) : Prop := r <> Ok tt /\ says_no_upstream r /\ w_bytes w' = w_bytes w.
(** what stands for a refused call: nothing, or that it has made the archive a ZIP64 one *)
Definition left_by (w w' : world) : list wop := if Bool.eqb (w_zip64 w') (w_zip64 w) then [] else [OpForceZip64].

(** the calls of a session without those that were refused and did not change the kind of archive *)
Definition vanishes (r : res unit) (w w' : world) : bool :=
  match r with Ok _ => false | Err (UpstreamReadError _) => false | _ => (len (w_bytes w') =? len (w_bytes w)) && Bool.eqb (w_zip64 w') (w_zip64 w) end.
Fixpoint unrefused (cd : codec) (l : list wop) (w : world) : list wop :=
  match l with
  | [] => []
  | o :: l => let '(r, w') := run_op cd o w in (if vanishes r w w' then [] else [o]) ++ unrefused cd l w'
  end.
(** [ys] is [xs] without some calls that did not work, and not because of the sink *)
Inductive fewer : list (wop * res unit) -> list (wop * res unit) -> Prop :=
| fewer_none : fewer [] []
| fewer_kept x xs ys : fewer xs ys -> fewer (x :: xs) (x :: ys)
| fewer_gone x xs ys : snd x <> Ok tt -> says_no_upstream (snd x) -> fewer xs ys -> fewer (x :: xs) ys.
(** refused for length *)
Definition too_large (r : res unit) : Prop := r = Err ExtraFieldTooLarge \/ r = Err FileNameTooLarge \/ r = Err CommentTooLarge.
