(** What is on the disk after an archive was written and extracted. *)
From Verif Require Import Base SpecWrite SpecExtract ZString Entry EntryReader Writer Extract.

(** a path of names as archives spell it, and below a directory *)
Fixpoint spelled (p : list bytes) : bytes :=
  match p with [] => [] | [c] => c | c :: r => c ++ [x2f] ++ spelled r end.
Definition below (dir : bytes) (p : list bytes) : bytes :=
  match dir with [] => [] | _ => if Byte.eqb (last dir x00) x2f then dir else dir ++ [x2f] end ++ spelled p.

(** what a caller wants to find again *)
Inductive wish := AFile (p : list bytes) (b : bytes) | AFolder (p : list bytes).
Definition place (x : wish) : list bytes := match x with AFile p _ | AFolder p => p end.
(** names without separators which the sanitizer leaves alone *)
Definition plain_name (sanitize : bytes -> bytes) (c : bytes) : Prop :=
  c <> [] /\ ~ In x2f c /\ ~ In x5c c /\ sanitize c = c.
(** the call of the writer that stands for a wish *)
Inductive asks (cd : codec) (sanitize : bytes -> bytes) : wop -> wish -> Prop :=
| asks_file o e p b : op_entry o = Some e -> p <> [] -> Forall (plain_name sanitize) p -> zs_raw (en_filename e) = spelled p ->
    holds cd o b -> asks cd sanitize o (AFile p b)
| asks_folder o e p b : op_entry o = Some e -> p <> [] -> Forall (plain_name sanitize) p -> zs_raw (en_filename e) = spelled p ++ [x2f] ->
    holds cd o b -> asks cd sanitize o (AFolder p).
(** no file lies on the way to another file or to a folder *)
Definition on_the_way (p q : list bytes) : Prop := exists r, q = p ++ r.
Definition together (x y : wish) : Prop :=
  match x, y with
  | AFile p _, AFile q _ => ~ on_the_way p q /\ ~ on_the_way q p
  | AFile p _, AFolder q => ~ on_the_way p q
  | AFolder p, AFile q _ => ~ on_the_way q p
  | AFolder _, AFolder _ => True
  end.
Definition files (dir : bytes) (l : list wish) : list (bytes * bytes) :=
  flat_map (fun x => match x with AFile p b => [(below dir p, b)] | AFolder _ => [] end) l.

(** A disk without faults and an output directory that was empty: what is refused is refused because of what extraction itself
    has made. A path leads to another if one gets from here to there by going down. *)
Definition leads (p q : bytes) : Prop := exists a b, walks p a /\ walks q (a ++ b).
Definition leads_on (p q : bytes) : Prop := exists a b, walks p a /\ walks q (a ++ b) /\ b <> [].
Definition fair (dir : bytes) (t : tree) : Prop := forall h a, leads_on dir (acts_on a) -> t_accepts t h a = false ->
  match a with
  | MakeDirs p => exists q, In q (created h) /\ leads q p
  | MakeParent p => exists q, In q (created h) /\ leads_on q p
  | CreateNew p =>
      (exists q, In q (created h) /\ leads q p) \/
      (exists q, In (MakeDirs q) h /\ leads p q) \/ (exists q, In (MakeParent q) h /\ leads_on p q) \/
      (t_parent_is_dir t h p = false /\ ~ In (MakeParent p) h)
  | Fill p _ => ~ In p (created h)
  end.
(** extraction has made this directory, or found it *)
Definition made (t : tree) (h : list action) (p : bytes) : Prop :=
  exists h1 h2, h = h1 ++ h2 /\ (t_exists t h1 p = true \/ exists h3, h2 = MakeDirs p :: h3).
