(** tokio/read/fs.rs: a reader that keeps a path and opens the file anew for every entry. *)
From Verif Require Import Base ZString Entry IO Reader EntryReader.

(** What [File::open] gives at the moment it is called: an error, or a handle of its own at the start of
    the file, whose bytes are [d] and which delivers them as the schedule [q] says. A handle stays with
    the bytes it was opened on. [BufReader] and [compat] only change how the bytes are cut up. *)
Definition path := bytes.
Inductive opening := OpenFails (e : io_error) | Opens (d : bytes) (q : list revent).
Definition filesystem := path -> opening.
Definition fs_open (fs : filesystem) (p : path) : res source :=
  match fs p with
  | OpenFails e => Err (UpstreamReadError e)
  | Opens d q => Ok {| s_data := d; s_pos := 0; s_sched := q |}
  end.

(** fs.rs 84-93 *)
Record fs_reader := { x_path : path; x_file : zfile }.

(** fs.rs 108-113 [from_raw_parts] *)
Definition fs_from_raw_parts (p : path) (f : zfile) : fs_reader := {| x_path := p; x_file := f |}.

(** fs.rs 97-103 [new]; the handle is dropped afterwards *)
Definition fs_new (cfg : config) (fs : filesystem) (p : path) : res fs_reader :=
  let? s := fs_open fs p in
  let? f := fst (file cfg s) in
  Ok (fs_from_raw_parts p f).

(** fs.rs 126-140 / 143-159: the index is looked up first, then the file is opened *)
Definition fs_reader_at (fs : filesystem) (x : fs_reader) (index : N) : res (ereader * stored_entry) :=
  match entry_at (x_file x) index with
  | None => Err EntryIndexOutOfBounds
  | Some e =>
    let? s := fs_open fs (x_path x) in
    match seek_to_data_offset e s with
    | (Ok _, s) => Ok (er_new s (en_compression (st_entry e)) (en_compressed_size (st_entry e)), e)
    | (Err x, _) => Err x
    | (Panic p, _) => Panic p
    end
  end.

(** a caller opening an entry and reading it to the end, checked *)
Definition fs_read_entry (cd : codec) (fs : filesystem) (x : fs_reader) (index : N) : res bytes :=
  let? r := fs_reader_at fs x index in fst (er_read_to_end_checked cd (st_entry (snd r)) (fst r)).
