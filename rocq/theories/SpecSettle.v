(** Copies of copies. *)
From Verif Require Import Base IO Writer SpecFormat SpecArchive SpecWrite SpecCopy Headers ExtraField Entry Reader EntryReader.

(** one generation, with the bytes of the archive, over a sink without faults *)
Definition copied_as (cd : codec) (cfg : config) (es : list (zentry * bytes)) (d : bytes) (es' : list (zentry * bytes)) : Prop :=
  exists sched, obliging sched /\ let '(xs, r, w) := run_archive cd sched (copy_ops es) in
  r = Ok tt /\ Forall (fun x => worked (snd x) = true) xs /\ w_bytes w = d /\ manageable cfg (w_zip64 w) (len es) d /\ taken cd cfg d es'.

(** extra fields without payload at the end of a list *)
Fixpoint empties (l : list extra_field) : nat :=
  match l with x :: l => match spec_payload x with [] => S (empties l) | _ => 0 end | [] => 0 end.
Definition trailing (x : zentry * bytes) : nat := empties (rev (en_extra (fst x))).
