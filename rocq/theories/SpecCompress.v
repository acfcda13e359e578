(** What lies below a directory, and archives of it. *)
From Verif Require Import Base SpecUtf8 SpecWrite SpecBack ZString Headers Entry EntryReader Writer Compress.

(** the path of what lies below a directory under the names [p] *)
Definition path_of (dir : bytes) (p : list bytes) : bytes := match p with [] => dir | _ => below dir p end.
(** names as [read_dir] gives them: each once, not empty, without slashes *)
Definition a_name (n : bytes) : Prop := n <> [] /\ ~ In x2f n.
Definition honest (d : disk) : Prop := forall p l, d_list d p = Some l -> NoDup l /\ Forall a_name l.

(** what one gets to from a directory by going down *)
Inductive lies (d : disk) (dir : bytes) : list bytes -> Prop :=
| lies_here : lies d dir []
| lies_in p l n : lies d dir p -> p = [] \/ d_is_dir d (path_of dir p) = true -> d_list d (path_of dir p) = Some l -> In n l -> lies d dir (p ++ [n]).
(** the directories and the files among it *)
Definition a_folder (d : disk) (dir : bytes) (p : list bytes) : Prop := lies d dir p /\ (p = [] \/ d_is_dir d (path_of dir p) = true).
Definition a_file (d : disk) (dir : bytes) (p : list bytes) : Prop := lies d dir p /\ p <> [] /\ d_is_dir d (path_of dir p) = false.
Definition file_with (d : disk) (dir : bytes) (p : list bytes) (b : bytes) : Prop := a_file d dir p /\ d_read d (path_of dir p) = Some b.

(** a list that holds each thing once, and just those with a property *)
Definition lists {A} (P : A -> Prop) (l : list A) : Prop := NoDup l /\ forall x, In x l <-> P x.

(** the call that puts a file away *)
Definition put (x : list bytes * bytes) : wop := OpWhole (entry_new (zs_from_string (spelled (fst x))) Deflate) (snd x).
(** the example is called for a directory or a file and gets as far as making the archive *)
Definition called_for (d : disk) (args : list bytes) (input : bytes) : Prop :=
  exists i o r, args = i :: o :: r /\ d_canonical d i = Some input /\ d_exists d o = false /\ d_exists d input = true /\ d_creates d o = true.
(** a canonical path other than that of the root *)
Definition below_root (p : bytes) : Prop := p <> [] /\ last p x00 <> x2f.
(** a directory small and orderly enough to go into an archive: its directories and files can be listed and read, names are
    text and not too long *)
Definition orderly (d : disk) (dir : bytes) (n : nat) : Prop :=
  SpecUtf8.is_utf8 dir /\
  (exists l, length l = n /\ forall p, a_folder d dir p -> In p l) /\
  (forall p, a_folder d dir p -> d_list d (path_of dir p) <> None) /\
  (forall p, a_file d dir p -> exists b, d_read d (path_of dir p) = Some b /\ len b < 0x10000000000000000 /\ SpecUtf8.is_utf8 (path_of dir p) /\
     len (spelled p) + 60 <= 65535).
(** what extraction needs on top: names that it leaves alone *)
Definition fit_to_extract (sanitize : bytes -> bytes) (d : disk) (dir : bytes) : Prop :=
  forall p, a_file d dir p -> Forall (plain_name sanitize) p.
(** no size can be taken for the placeholder: the archive is short, or no file is of that length, before or after compression *)
Definition no_placeholder (cd : codec) (d : disk) (dir : bytes) (archive : bytes) : Prop :=
  len archive <= 0xFFFFFFFF \/ forall p b, file_with d dir p b -> len b <> 0xFFFFFFFF /\ forall z, compressed cd Deflate b z -> len z <> 0xFFFFFFFF.
