(** How long the directory of an archive is, worked out from the calls that are in it. *)
From Verif Require Import Base SpecFormat SpecArchive SpecWrite SpecSize ZString Headers ExtraField Entry IO Writer.

(** ZIP64 is not forbidden, no Unicode field of the caller's, and, unless it is a stream, nothing too big *)
Definition tame (d : bytes) (x : bool * wop) : Prop :=
  fst x = false /\
  match snd x with
  | OpWhole e data => unsaid e /\ len data <= 0xFFFFFFFF /\ len d <= 0xFFFFFFFF
  | OpWholePre e _ => unsaid e /\ en_uncompressed_size e <= 0xFFFFFFFF /\ len d <= 0xFFFFFFFF
  | OpStream _ e _ _ => unsaid e
  | _ => True
  end.
Definition record_size (o : wop) : N :=
  match o with OpWhole e _ | OpWholePre e _ => central_size e false | OpStream _ e _ _ => central_size e true | _ => 0 end.
Definition directory_size (l : list (bool * wop)) : N := fold_right (fun x n => record_size (snd x) + n) 0 l.
