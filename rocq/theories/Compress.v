(** examples/cli_compress.rs: an archive of a file or of a directory. Unix paths. *)
From Verif Require Import Base Utf8 ZString Headers Entry IO EntryReader Writer Extract.

(** The operating system, as it answers while the example runs. *)
Record disk := {
  d_canonical : bytes -> option bytes;    (* path.canonicalize() *)
  d_exists : bytes -> bool;               (* path.exists() *)
  d_creates : bytes -> bool;              (* File::create(path) works *)
  d_is_dir : bytes -> bool;               (* path.is_dir() *)
  d_list : bytes -> option (list bytes);  (* read_dir(path) and all of its next_entry(): the names *)
  d_read : bytes -> option bytes }.       (* File::open(path), metadata() and read_to_end() *)

(** anyhow::Result: the example's own errors and those of the operating system, and those of the writer *)
Inductive cli (A : Type) := Done (a : A) | Bail | Failed (e : zip_error) | Broke (p : panic).
Arguments Done {A} a. Arguments Bail {A}. Arguments Failed {A} e. Arguments Broke {A} p.

(** std [Path::file_name]: the last part, unless it is ".." *)
Definition file_name (p : bytes) : option bytes :=
  match rev (filter (fun q => negb (bytes_eqb q [] || bytes_eqb q [x2e])) (split_slash p)) with
  | c :: _ => if bytes_eqb c [x2e; x2e] then None else Some c
  | [] => None
  end.
(** std [OsStr::to_str] *)
Definition to_str (p : bytes) : option bytes := if utf8_valid p then Some p else None.
(** std [str::starts_with] *)
Fixpoint starts_with (l p : bytes) : bool :=
  match p, l with
  | [], _ => true
  | x :: p, y :: l => Byte.eqb x y && starts_with l p
  | _ :: _, [] => false
  end.
(** std [&s[n..]]: [n] has to lie at the edge of a character *)
Definition str_from (n : N) (s : bytes) : res bytes :=
  if len s <? n then Panic PSlice
  else match drop n s with
       | b :: _ => if (0x80 <=? b2n b) && (b2n b <? 0xC0) then Panic PSlice else Ok (drop n s)
       | [] => Ok []
       end.

(** cli_compress.rs 85-96 [write_entry] *)
Definition write_entry (cd : codec) (d : disk) (filename path : bytes) (w : world) : cli unit * world :=
  match d_read d path with
  | None => (Bail, w)
  | Some b =>
    match write_entry_whole cd (entry_new (zs_from_string filename) Deflate) b w with
    | (Ok _, w) => (Done tt, w)
    | (Err e, w) => (Failed e, w)
    | (Panic p, w) => (Broke p, w)
    end
  end.

(** 105-113: what is found in one directory *)
Fixpoint sort_out (d : disk) (dir : bytes) (names : list bytes) (dirs files : list bytes) : list bytes * list bytes :=
  match names with
  | [] => (dirs, files)
  | n :: names =>
    let p := path_join dir n in
    if d_is_dir d p then sort_out d dir names (dirs ++ [p]) files else sort_out d dir names dirs (files ++ [p])
  end.
(** 98-117 [walk_dir]: [fuel] bounds the number of directories *)
Fixpoint walk_dirs (d : disk) (fuel : nat) (dirs files : list bytes) : cli (list bytes) :=
  match dirs with
  | [] => Done files
  | x :: rest =>
    match fuel with
    | O => Broke PFuel
    | S fuel =>
      match d_list d x with
      | None => Bail
      | Some names => let '(dirs, files) := sort_out d x names rest files in walk_dirs d fuel dirs files
      end
    end
  end.
Definition walk_dir (d : disk) (fuel : nat) (dir : bytes) : cli (list bytes) := walk_dirs d fuel [dir] [].

(** 70-80: the loop of [handle_directory] *)
Fixpoint handle_entries (cd : codec) (d : disk) (dir : bytes) (l : list bytes) (w : world) : cli unit * world :=
  match l with
  | [] => (Done tt, w)
  | p :: l =>
    match to_str p with
    | None => (Bail, w)
    | Some p =>
      if negb (starts_with p dir) then (Bail, w)
      else match str_from (len dir + 1) p with
           | Ok name =>
             match write_entry cd d name p w with
             | (Done _, w) => handle_entries cd d dir l w
             | x => x
             end
           | Err e => (Failed e, w)
           | Panic p => (Broke p, w)
           end
    end
  end.
(** 66-83 [handle_directory] *)
Definition handle_directory (cd : codec) (d : disk) (fuel : nat) (path : bytes) (w : world) : cli unit * world :=
  match walk_dir d fuel path with
  | Done l => match to_str path with None => (Bail, w) | Some dir => handle_entries cd d dir l w end
  | Bail => (Bail, w)
  | Failed e => (Failed e, w)
  | Broke p => (Broke p, w)
  end.
(** 59-64 [handle_singular] *)
Definition handle_singular (cd : codec) (d : disk) (path : bytes) (w : world) : cli unit * world :=
  match file_name path with
  | None => (Bail, w)
  | Some n => match to_str n with None => (Bail, w) | Some n => write_entry cd d n path w end
  end.
(** 26-57 [run], given the arguments; the second component is the writer, once there is one *)
Definition run (cd : codec) (sched : list wevent) (d : disk) (fuel : nat) (args : list bytes) : cli unit * option world :=
  match args with
  | input :: output :: _ =>
    match d_canonical d input with
    | None => (Bail, None)
    | Some input =>
      if d_exists d output then (Bail, None)
      else if negb (d_exists d input) then (Bail, None)
      else if negb (d_creates d output) then (Bail, None)
      else
        let w := zw_new sched in
        match (if d_is_dir d input then handle_directory cd d fuel input w else handle_singular cd d input w) with
        | (Done _, w) =>
          match zw_close w with
          | (Ok _, w) => (Done tt, Some w)
          | (Err e, w) => (Failed e, Some w)
          | (Panic p, w) => (Broke p, Some w)
          end
        | (x, w) => (x, Some w)
        end
    end
  | _ => (Bail, None)
  end.
