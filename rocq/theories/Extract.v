(** examples/file_extraction.rs: where an extracted entry goes. Unix paths. *)
From Verif Require Import Base ZString Headers Entry IO Reader EntryReader.

Definition SLASH : byte := x2f.
Definition BACKSLASH : byte := x5c.

(** std [str::replace('\\', "/")] *)
Definition replace_backslash (l : bytes) : bytes :=
  map (fun b => if Byte.byte_eq_dec b BACKSLASH then SLASH else b) l.
(** std [str::split('/')]: always at least one piece *)
Fixpoint split_slash (l : bytes) : list bytes :=
  match l with
  | [] => [[]]
  | b :: r =>
    if Byte.byte_eq_dec b SLASH then [] :: split_slash r
    else match split_slash r with [] => [[b]] | p :: ps => (b :: p) :: ps end
  end.

(** std [PathBuf::push] (Unix): an absolute path replaces, anything else is appended after a separator if one is needed *)
Definition is_absolute (p : bytes) : bool := match p with b :: _ => if Byte.byte_eq_dec b SLASH then true else false | [] => false end.
Definition path_push (buf p : bytes) : bytes :=
  if is_absolute p then p
  else if (len buf =? 0) || ends_with_slash buf then buf ++ p
  else buf ++ [SLASH] ++ p.
(** std [impl FromIterator for PathBuf], [Path::join] *)
Definition path_collect (l : list bytes) : bytes := fold_left path_push l [].
Definition path_join (a b : bytes) : bytes := path_push a b.

(** file_extraction.rs 32-40 [sanitize_file_path]; [sanitize] is sanitize_filename::sanitize (external) *)
Definition sanitize_file_path (sanitize : bytes -> bytes) (path : bytes) : bytes :=
  path_collect (map sanitize (split_slash (replace_backslash path))).
(** file_extraction.rs 48 *)
Definition target (sanitize : bytes -> bytes) (out_dir name : bytes) : bytes :=
  path_join out_dir (sanitize_file_path sanitize name).

(** ** file_extraction.rs 43-82 [unzip_file] *)
(** What is done to the directory tree, in order. [MakeParent p] is [create_dir_all(p.parent())]; [Fill p b] says that
    the file made at [p] has received [b] in full. *)
Inductive action := MakeDirs (p : bytes) | MakeParent (p : bytes) | CreateNew (p : bytes) | Fill (p b : bytes).
(** The operating system: what it answers may depend on everything done so far. *)
Record tree := {
  t_exists : list action -> bytes -> bool;         (* path.exists() *)
  t_parent_is_dir : list action -> bytes -> bool;  (* path.parent().is_dir() *)
  t_accepts : list action -> action -> bool }.     (* whether it succeeds *)

(** std [Path::parent] gives something: the path names something other than a root *)
Definition has_parent (p : bytes) : bool :=
  if is_absolute p then existsb (fun q => negb (bytes_eqb q [] || bytes_eqb q [x2e])) (split_slash p) else negb (len p =? 0).

Definition expect {A} (r : res A) : res A := match r with Err _ => Panic PUnwrap | x => x end.
Definition doing (t : tree) (h : list action) (a : action) : res (list action) :=
  if t_accepts t h a then Ok (h ++ [a]) else Panic PUnwrap.

(** lines 47-80, given the reader for the entry (line 55): the result is what was done by then and the source *)
Definition unzip_entry (cd : codec) (sanitize : bytes -> bytes) (t : tree) (out_dir : bytes) (f : zfile) (index : N)
    (h : list action) (s : source) : res unit * list action * source :=
  match entry_at f index with
  | None => (Panic PUnwrap, h, s)
  | Some e =>
    match expect (zs_as_str (en_filename (st_entry e))) with
    | Ok name =>
      let path := target sanitize out_dir name in
      match expect (entry_dir (st_entry e)) with
      | Ok is_dir =>
        match seek_reader_at f index s with
        | (Ok (r, _), _) =>
          if is_dir then
            if t_exists t h path then (Ok tt, h, er_src r)
            else match doing t h (MakeDirs path) with Ok h => (Ok tt, h, er_src r) | _ => (Panic PUnwrap, h, er_src r) end
          else if negb (has_parent path) then (Panic PUnwrap, h, er_src r)
          else
            match (if t_parent_is_dir t h path then Ok h else doing t h (MakeParent path)) with
            | Ok h =>
              match doing t h (CreateNew path) with
              | Ok h =>
                match er_read_to_end cd r with
                | (Ok b, r) => match doing t h (Fill path b) with Ok h => (Ok tt, h, er_src r) | _ => (Panic PUnwrap, h, er_src r) end
                | (_, r) => (Panic PUnwrap, h, er_src r)
                end
              | _ => (Panic PUnwrap, h, er_src r)
              end
            | _ => (Panic PUnwrap, h, er_src r)
            end
        | (_, s) => (Panic PUnwrap, h, s)
        end
      | _ => (Panic PUnwrap, h, s)
      end
    | _ => (Panic PUnwrap, h, s)
    end
  end.
(** line 46: [count] entries from [index] on *)
Fixpoint unzip_from (cd : codec) (sanitize : bytes -> bytes) (t : tree) (out_dir : bytes) (f : zfile) (index : N) (count : nat)
    (h : list action) (s : source) : res unit * list action * source :=
  match count with
  | O => (Ok tt, h, s)
  | S count =>
    match unzip_entry cd sanitize t out_dir f index h s with
    | (Ok _, h, s) => unzip_from cd sanitize t out_dir f (index + 1) count h s
    | x => x
    end
  end.
Definition unzip_file (cd : codec) (cfg : config) (sanitize : bytes -> bytes) (t : tree) (out_dir : bytes) (s : source)
    : res unit * list action * source :=
  match seek_new cfg s with
  | (Ok f, s) => unzip_from cd sanitize t out_dir f 0 (length (f_entries f)) [] s
  | (_, s) => (Panic PUnwrap, [], s)
  end.
