(** When a path stays inside a directory. *)
From Verif Require Import Base ZString Entry SpecRead EntryReader Extract.

(** [pieces p l]: [p] is made of the pieces [l], none of which holds a slash, with slashes in between *)
Inductive pieces : bytes -> list bytes -> Prop :=
| pieces_one p : ~ In x2f p -> pieces p [p]
| pieces_more p q l : ~ In x2f p -> pieces q l -> pieces (p ++ [x2f] ++ q) (p :: l).
(** the steps a path takes: pieces that are empty or "." stay where they are *)
Definition idle (p : bytes) : bool := bytes_eqb p [] || bytes_eqb p [x2e].
Definition walks (p : bytes) (l : list bytes) : Prop := exists ps, pieces p ps /\ l = filter (fun q => negb (idle q)) ps.
(** a path inside [dir]: it starts out as [dir] does and then only goes down *)
Definition inside (dir p : bytes) : Prop :=
  exists a b, walks dir a /\ walks p (a ++ b) /\ ~ In [x2e; x2e] b /\
    (nth_error p 0 = Some x2f <-> nth_error dir 0 = Some x2f).
(** the parts of an entry's name: what stands between slashes and backslashes *)
Inductive parts : bytes -> list bytes -> Prop :=
| parts_one p : ~ In x2f p -> ~ In x5c p -> parts p [p]
| parts_more p c q l : ~ In x2f p -> ~ In x5c p -> c = x2f \/ c = x5c -> parts q l -> parts (p ++ [c] ++ q) (p :: l).
(** what is assumed of sanitize_filename::sanitize: its results are plain names, or empty *)
Definition plain_names (sanitize : bytes -> bytes) : Prop :=
  forall c, ~ In x2f (sanitize c) /\ sanitize c <> [x2e] /\ sanitize c <> [x2e; x2e].

Definition acts_on (a : action) : bytes := match a with MakeDirs p | MakeParent p | CreateNew p | Fill p _ => p end.
Definition created (h : list action) : list bytes := flat_map (fun a => match a with CreateNew p => [p] | _ => [] end) h.
Definition filled (h : list action) : list (bytes * bytes) := flat_map (fun a => match a with Fill p b => [(p, b)] | _ => [] end) h.
(** [create_new] refuses a path at which something has been made *)
Definition exclusive (t : tree) : Prop := forall h p, t_accepts t h (CreateNew p) = true -> ~ In p (created h).
(** what should be extracted of an entry that is a file *)
Definition extracted (cd : codec) (sanitize : bytes -> bytes) (dir d : bytes) (e : stored_entry) (x : bytes * bytes) : Prop :=
  exists name, zs_as_str (en_filename (st_entry e)) = Ok name /\ fst x = target sanitize dir name /\
    decoded cd (en_compression (st_entry e)) (region d e) = (snd x, true).
Definition is_file (e : stored_entry) : bool :=
  match zs_as_str (en_filename (st_entry e)) with Ok name => negb (Byte.eqb (last name x00) x2f) | _ => true end.
