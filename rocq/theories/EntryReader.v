(** base/read/io/{entry,hashed,compressed,owned}.rs, base/read/{mem,seek}.rs: reading entries. *)
From Verif Require Import Base Crc32 Utf8 Headers Entry IO Reader.

(** async-compression (external), as an arbitrary codec. The encoder is a state machine: it is
    offered a buffer, says how many bytes it took, and emits output; [enc_flush] and
    [enc_finish] emit pending output. The decoder maps the available input to the output it can
    produce and, if the compressed stream ends in that input, the number of bytes it consumes;
    [None] stands for corrupt or truncated input. *)
Record codec := {
  est : Type;
  enc_init : compression -> level -> est;
  enc_write : est -> bytes -> N * bytes * est;
  enc_flush : est -> bytes * est;
  enc_finish : est -> bytes;
  dec : compression -> bytes -> bytes * option N }.

(** entry.rs 23-27: HashedReader<CompressedReader<Take<OwnedReader<R>>>>.
    [er_limit] is the limit of [Take]; [er_out] counts decoded bytes delivered so far and
    [er_fin] tells that the decoder reached the end of its stream. For compressed entries the
    position of the source is only updated when the decoder finishes (the crate hands the inner
    reader back only then). Owned and borrowed inner readers behave alike. *)
Record ereader := {
  er_src : source; er_limit : N; er_comp : compression; er_out : N; er_fin : bool; er_hash : hasher }.

(** entry.rs 34-43 [new_with_owned] / [new_with_borrow], hashed.rs 26-28, compressed.rs 44-60 *)
Definition er_new (s : source) (c : compression) (size : N) : ereader :=
  {| er_src := s; er_limit := size; er_comp := c; er_out := 0; er_fin := false; er_hash := hasher_new |}.

(** the bytes visible through [Take] *)
Definition er_window (r : ereader) : bytes :=
  take (er_limit r) (drop (s_pos (er_src r)) (s_data (er_src r))).

Definition with_sched (s : source) (q : list revent) : source :=
  {| s_data := s_data s; s_pos := s_pos s; s_sched := q |}.

(** compressed.rs 82-103 over futures-lite [Take::poll_read] resp. the bufread decoders. *)
Definition inner_poll_read (cd : codec) (n : N) (r : ereader) : rpoll * ereader :=
  match er_comp r with
  | Stored =>
    if er_limit r =? 0 then (RGot [], r)
    else
      let '(p, s) := poll_read (N.min n (er_limit r)) (er_src r) in
      let taken := match p with RGot b => len b | _ => 0 end in
      (p, {| er_src := s; er_limit := er_limit r - taken; er_comp := er_comp r; er_out := er_out r + taken;
             er_fin := er_fin r; er_hash := er_hash r |})
  | c =>
    if (n =? 0) || er_fin r then (RGot [], r)
    else
      let '(out, fin) := dec cd c (er_window r) in
      let rest := drop (er_out r) out in
      let src := er_src r in
      let deliver k q :=
        let b := take k rest in
        if len b =? 0 then
          match fin with
          | Some consumed =>
            (RGot [], {| er_src := with_sched (set_pos src (s_pos src + consumed)) q;
                         er_limit := er_limit r - consumed; er_comp := er_comp r;
                         er_out := er_out r; er_fin := true; er_hash := er_hash r |})
          | None =>
            (RErr InvalidData, {| er_src := with_sched src q; er_limit := er_limit r; er_comp := er_comp r;
                                  er_out := er_out r; er_fin := er_fin r; er_hash := er_hash r |})
          end
        else (RGot b, {| er_src := with_sched src q; er_limit := er_limit r; er_comp := er_comp r;
                         er_out := er_out r + len b; er_fin := er_fin r; er_hash := er_hash r |}) in
      let same q := {| er_src := with_sched src q; er_limit := er_limit r; er_comp := er_comp r;
                       er_out := er_out r; er_fin := er_fin r; er_hash := er_hash r |} in
      match s_sched src with
      | [] => deliver n []
      | RPending :: q => (RPend, same q)
      | RChunk k :: q => deliver (N.min n (k + 1)) q
      | RFail e :: q => (RErr (IoOther e), same q)
      end
  end.

Definition set_hash (r : ereader) (h : hasher) : ereader :=
  {| er_src := er_src r; er_limit := er_limit r; er_comp := er_comp r; er_out := er_out r;
     er_fin := er_fin r; er_hash := h |}.

(** hashed.rs 45-56 [poll_read], entry.rs 54-61 *)
Definition er_poll_read (cd : codec) (n : N) (r : ereader) : rpoll * ereader :=
  match inner_poll_read cd n r with
  | (RGot b, r') => (RGot b, set_hash r' (hasher_update (er_hash r') b))
  | (p, r') => (p, r')
  end.

(** [reader.read(buf).await] *)
Fixpoint er_read_poll (cd : codec) (fuel : nat) (n : N) (r : ereader) : res bytes * ereader :=
  match fuel with
  | O => (Panic PFuel, r)
  | S f =>
    match er_poll_read cd n r with
    | (RPend, r') => er_read_poll cd f n r'
    | (RGot b, r') => (Ok b, r')
    | (RErr e, r') => (Err (UpstreamReadError e), r')
    end
  end.
Definition er_read (cd : codec) (n : N) : SM ereader bytes :=
  fun r => er_read_poll cd (S (length (s_sched (er_src r)))) n r.

(** futures-lite [read_to_end]. The size of the spare capacity offered in each round is subsumed
    by the schedule, so a buffer larger than any data is offered. *)
Fixpoint er_read_to_end_loop (cd : codec) (fuel : nat) : SM ereader bytes :=
  match fuel with
  | O => lift (Panic PFuel)
  | S f =>
    b <- er_read cd u64_max ;;
    if len b =? 0 then ret []
    else r <- er_read_to_end_loop cd f ;; ret (b ++ r)
  end.

(** iterations needed at most: one per scheduled outcome and one per byte still to come *)
Definition er_fuel (cd : codec) (r : ereader) : nat :=
  S (S (length (s_sched (er_src r)) + length (s_data (er_src r))
        + length (fst (dec cd (er_comp r) (er_window r))))).
Definition er_read_to_end (cd : codec) : SM ereader bytes :=
  fun r => er_read_to_end_loop cd (er_fuel cd r) r.

(** entry.rs 70-72 [compute_hash], hashed.rs 35-37 *)
Definition er_compute_hash : SM ereader N :=
  fun r => (Ok (hasher_finalize (er_hash r)), set_hash r hasher_new).

(** entry.rs 92-100 [read_to_end_checked]: the bytes are appended to [buf] (also on failure of
    the check; the buffer is not part of the result here, only the bytes read). *)
Definition er_read_to_end_checked (cd : codec) (e : zentry) : SM ereader bytes :=
  b <- er_read_to_end cd ;;
  h <- er_compute_hash ;;
  if h =? en_crc32 e then ret b else fail CRC32CheckError.

(** entry.rs 105-113 [read_to_string_checked] with an initially empty string; futures-lite
    [read_to_string] fails with InvalidData on bytes that are not UTF-8. *)
Definition er_read_to_string_checked (cd : codec) (e : zentry) : SM ereader bytes :=
  b <- er_read_to_end cd ;;
  if utf8_valid b then
    h <- er_compute_hash ;;
    if h =? en_crc32 e then ret b else fail CRC32CheckError
  else fail (UpstreamReadError InvalidData).

(** ** mem.rs *)
(** mem.rs 83-92 *)
Record mem_reader := { m_data : bytes; m_file : zfile }.
Definition cursor (d : bytes) : source := {| s_data := d; s_pos := 0; s_sched := [] |}.

(** mem.rs 96-99 [new] *)
Definition mem_new (cfg : config) (data : bytes) : res mem_reader :=
  let? f := fst (file cfg (cursor data)) in Ok {| m_data := data; m_file := f |}.

(** [entries.get(index)] *)
Definition entry_at (f : zfile) (index : N) : option stored_entry := nth_error (f_entries f) (N.to_nat index).

(** mem.rs 119-130 / 133-146: the cursor is fresh for every reader *)
Definition mem_reader_at (m : mem_reader) (index : N) : res (ereader * stored_entry) :=
  match entry_at (m_file m) index with
  | None => Err EntryIndexOutOfBounds
  | Some e =>
    match seek_to_data_offset e (cursor (m_data m)) with
    | (Ok _, s) => Ok (er_new s (en_compression (st_entry e)) (en_compressed_size (st_entry e)), e)
    | (Err x, _) => Err x
    | (Panic p, _) => Panic p
    end
  end.

(** ** seek.rs *)
(** seek.rs 45-48 *)
Record seek_reader := { sr_src : source; sr_file : zfile }.

(** seek.rs 55-58 [new] *)
Definition seek_new (cfg : config) : SM source zfile := file cfg.

(** seek.rs 85-94 / 97-109 / 113-126: borrow (or take) the shared reader after seeking it. *)
Definition seek_reader_at (f : zfile) (index : N) : SM source (ereader * stored_entry) :=
  match entry_at f index with
  | None => fail EntryIndexOutOfBounds
  | Some e =>
    seek_to_data_offset e ;;;
    s <- get ;;
    ret (er_new s (en_compression (st_entry e)) (en_compressed_size (st_entry e)), e)
  end.

(** ** What a caller does with one entry: open it and read it to the end, checked. *)
Definition read_entry (cd : codec) (f : zfile) (index : N) (s : source) : res bytes :=
  match seek_reader_at f index s with
  | (Ok (r, e), _) => fst (er_read_to_end_checked cd (st_entry e) r)
  | (Err x, _) => Err x
  | (Panic p, _) => Panic p
  end.
Definition mem_read_entry (cd : codec) (m : mem_reader) (index : N) : res bytes :=
  let? x := mem_reader_at m index in fst (er_read_to_end_checked cd (st_entry (snd x)) (fst x)).

(** a caller reading with buffers of the given sizes *)
Fixpoint er_reads (cd : codec) (l : list N) (r : ereader) : list (res bytes) * ereader :=
  match l with
  | [] => ([], r)
  | n :: l => let '(x, r) := er_read cd n r in let '(xs, r) := er_reads cd l r in (x :: xs, r)
  end.
Definition delivered (l : list (res bytes)) : bytes :=
  concat (map (fun x => match x with Ok b => b | _ => [] end) l).

(** the shared seekable source after a caller opened an entry, read some of it and dropped it *)
Definition seek_use (cd : codec) (f : zfile) (index : N) (l : list N) (s : source) : source :=
  match seek_reader_at f index s with
  | (Ok (r, _), _) => er_src (snd (er_reads cd l r))
  | (_, s') => s'
  end.
Fixpoint seek_uses (cd : codec) (f : zfile) (h : list (N * list N)) (s : source) : source :=
  match h with [] => s | (i, l) :: h => seek_uses cd f h (seek_use cd f i l s) end.

(** Several in-memory readers polled in some order: [ops] says who reads with which buffer size. *)
Fixpoint update_at {A} (k : nat) (a : A) (l : list A) : list A :=
  match l, k with
  | [], _ => []
  | _ :: r, O => a :: r
  | x :: r, S k => x :: update_at k a r
  end.
Fixpoint interleave (cd : codec) (ops : list (nat * N)) (rs : list ereader) : list (nat * res bytes) * list ereader :=
  match ops with
  | [] => ([], rs)
  | (k, n) :: ops =>
    match nth_error rs k with
    | None => interleave cd ops rs
    | Some r =>
      let '(x, r) := er_read cd n r in
      let '(xs, rs) := interleave cd ops (update_at k r rs) in ((k, x) :: xs, rs)
    end
  end.
