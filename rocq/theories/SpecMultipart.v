(** What should become of the parts of a form. *)
From Verif Require Import Base SpecUtf8 SpecWrite ZString Headers Entry EntryReader Writer Multipart.

(** parts that arrive whole: file name and chunks *)
Definition received (l : list (option bytes * list bytes)) : list (option part) :=
  map (fun y => Some {| pt_filename := fst y; pt_chunks := map Some (snd y) |}) l.
(** the name a part is stored under: the sanitized one, or one made up *)
Definition known_as (sanitize : bytes -> bytes) (uuid : N -> bytes) (k : N) (y : option bytes * list bytes) : bytes :=
  match fst y with Some n => sanitize n | None => uuid k end.
(** the calls that store the parts *)
Definition deposit (sanitize : bytes -> bytes) (uuid : N -> bytes) (k : N) (y : option bytes * list bytes) (closed : bool) : wop :=
  OpStream false (entry_new (zs_from_string (known_as sanitize uuid k y)) Deflate) (map SWriteAll (snd y)) closed.
Fixpoint deposits (sanitize : bytes -> bytes) (uuid : N -> bytes) (k : N) (l : list (option bytes * list bytes)) : list wop :=
  match l with [] => [] | y :: l => deposit sanitize uuid k y true :: deposits sanitize uuid (k + 1) l end.
(** names that are text and fit *)
Definition good_names (sanitize : bytes -> bytes) (uuid : N -> bytes) : Prop :=
  (forall n, SpecUtf8.is_utf8 (sanitize n) /\ len (sanitize n) + 60 <= 65535) /\ (forall k, SpecUtf8.is_utf8 (uuid k) /\ len (uuid k) + 60 <= 65535).
(** what the form holds in chunks, up to the first error *)
Definition holdings (l : list (option part)) : N :=
  fold_right N.add 0 (map (fun x => match x with None => 0 | Some x => fold_right N.add 0 (map (fun c => match c with None => 0 | Some b => len b end) (pt_chunks x)) end) l).
(** the directory of their archive: 46 bytes and a ZIP64 field of 28 for each, besides its name *)
Fixpoint parts_directory (sanitize : bytes -> bytes) (uuid : N -> bytes) (k : N) (l : list (option bytes * list bytes)) : N :=
  match l with [] => 0 | y :: l => 74 + len (known_as sanitize uuid k y) + parts_directory sanitize uuid (k + 1) l end.
