(** Giving up calls: what it should amount to. *)
From Verif Require Import Base IO Writer SpecWrite GiveUp.

(** how many polls a schedule puts off *)
Definition pends (l : list wevent) : nat := length (filter (fun e => match e with WPending => true | _ => false end) l).
(** the sink's schedule, with an error instead of some of the polls put off *)
Definition soured (l l' : list wevent) : Prop := Forall2 (fun a b => a = b \/ a = WPending /\ b = WFail 0) l l'.
(** a call that was left, as the caller of a failing sink would see it *)
Definition told_of (x : seen unit) : res unit := match x with Finished r => r | Left => Err (UpstreamReadError (IoOther 0)) end.
(** calls that came to a good end *)
Definition well (x : seen unit) : bool := match x with Finished (Ok _) => true | _ => false end.
(** the calls that wrote an entry and ended well, with whether ZIP64 was forbidden *)
Fixpoint kept (no64 : bool) (l : list (wop * seen unit)) : list (bool * wop) :=
  match l with
  | [] => []
  | (o, x) :: l => (if writes_entry o && well x then [(no64, o)] else []) ++ kept (no_after no64 o) l
  end.
Definition told_ops (xs : list (wop * seen unit)) : list (wop * res unit) := map (fun x => (fst x, told_of (snd x))) xs.
(** a caller that stops at the first call that does not end well *)
Definition stops (r : res unit) : bool := match r with Ok _ => false | _ => true end.
