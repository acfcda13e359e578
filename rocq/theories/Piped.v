(** A caller that carries entries from one archive into another without holding them: futures-lite [copy], the reader around any decoder over a
    source with troublesome seeks, the stream writer around any encoder. The caller compares the checksum (base/read/io/entry.rs 70-72 [compute_hash])
    before it closes the stream, and drops it when anything was wrong. *)
From Verif Require Import Base Crc32 ZString ZDate Headers ExtraField Entry IO Locator Reader EntryReader ReaderPolls GiveUp Seeks DecoderPolls Writer StreamPolls EncoderPolls AwaitedWrites.

Section Pipe.
Context (cd : codec) (D : decoder) (E : engine cd) (k : nat).

(** a stream writer, with its encoder if it has one *)
Definition outlet : Type := stream_writer cd * option (eg_state E).
(** [write_all] of a chunk; [inr]: how it ended if not well ([None]: given up while pending) *)
Definition pour (b : bytes) (o : outlet) (w : world) : (outlet + option (res unit)) * world :=
  match o with
  | (sw, Some g) =>
    match await_write E k b sw g w with
    | (Some (Ok (sw', g')), w') => (inl (sw', Some g'), w')
    | (Some (Err e), w') => (inr (Some (Err e)), w')
    | (Some (Panic p), w') => (inr (Some (Panic p)), w')
    | (None, w') => (inr None, w')
    end
  | (sw, None) =>
    match stream_write_all sw b w with
    | (Ok sw', w') => (inl (sw', None), w')
    | (Err e, w') => (inr (Some (Err e)), w')
    | (Panic p, w') => (inr (Some (Panic p)), w')
    end
  end.
Definition shut (o : outlet) (w : world) : option (res unit) * world :=
  match o with
  | (sw, Some g) => coded_close E k sw g w
  | (sw, None) => let '(r, w') := stream_close sw w in (Some r, w')
  end.

(** how the carrying ended: all is through; the reader said something else ([None]: no buffers are left); the writer did *)
Inductive pipe_end := Ended (o : outlet) | ReaderEnds (x : option (res unit)) | WriterEnds (x : option (res unit)).
(** what was read is poured chunk by chunk; the chunks are returned as well *)
Fixpoint pipe (ns : list N) (r : dreader D) (o : outlet) (w : world) : pipe_end * dreader D * list bytes * world :=
  match ns with
  | [] => (ReaderEnds None, r, [], w)
  | n :: ns =>
    match dr_poll_read n r with
    | (RPend, r') => pipe ns r' o w
    | (RErr e, r') => (ReaderEnds (Some (Err (UpstreamReadError e))), r', [], w)
    | (RGot [], r') => (Ended o, r', [], w)
    | (RGot b, r') =>
      match pour b o w with
      | (inl o', w') => let '(x, r'', c, w'') := pipe ns r' o' w' in (x, r'', b :: c, w'')
      | (inr x, w') => (WriterEnds x, r', [b], w')
      end
    end
  end.

(** which entry is to be carried, with how much patience, through which buffers, and what it is to be called *)
Record carriage := { ca_index : N; ca_patience : nat; ca_buffers : list N; ca_entry : zentry }.
Inductive carried := Carried | OpeningSaid (x : seen unit) | ReaderSaid (x : option (res unit)) | WriterSaid (x : option (res unit)) | Corrupt.
(** [carry]: also the call that it amounts to for the writer, if there is any *)
Definition carry (f : zfile) (j : carriage) (h : harsh) (w : world) : carried * list (wop * option (res unit)) * harsh * world :=
  let op c closed := OpStream false (ca_entry j) (map SWriteAll c) closed in
  match h_reader_at f (ca_index j) (ca_patience j) h with
  | (Finished (Ok (r, e)), _, h1) =>
    match stream_open cd false (ca_entry j) w with
    | (Ok sw, w1) =>
      let o := (sw, match sw_enc sw with Some st => Some (eg_new E st) | None => None end) in
      let '(x, r', c, w2) := pipe (ca_buffers j) (dr_new D (er_src r) (er_comp r) (er_limit r)) o w1 in
      let h2 := with_src h1 (dr_src r') in
      match x with
      | Ended o' =>
        if hasher_finalize (dr_hash r') =? en_crc32 (st_entry e) then
          let '(y, w3) := shut o' w2 in
          (match y with Some (Ok _) => Carried | _ => WriterSaid y end, [(op c true, y)], h2, w3)
        else (Corrupt, [(op c false, Some (Ok tt))], h2, w2)
      | ReaderEnds y => (ReaderSaid y, [(op c false, Some (Ok tt))], h2, w2)
      | WriterEnds y => (WriterSaid y, [(op c false, y)], h2, w2)
      end
    | (Err x, w1) => (WriterSaid (Some (Err x)), [(op [] true, Some (Err x))], h1, w1)
    | (Panic p, w1) => (WriterSaid (Some (Panic p)), [(op [] true, Some (Panic p))], h1, w1)
    end
  | (Finished (Err x), _, h1) => (OpeningSaid (Finished (Err x)), [], h1, w)
  | (Finished (Panic p), _, h1) => (OpeningSaid (Finished (Panic p)), [], h1, w)
  | (Left, _, h1) => (OpeningSaid Left, [], h1, w)
  end.

(** a session: entries that are carried, and calls of the writer in between *)
Inductive errand := Carry (j : carriage) | Call (o : wop).
Inductive errand_end := CarryEnds (x : carried) | CallEnds (x : option (res unit)).
Fixpoint errands (f : zfile) (l : list errand) (h : harsh) (w : world) : list errand_end * list (wop * option (res unit)) * harsh * world :=
  match l with
  | [] => ([], [], h, w)
  | Carry j :: l =>
    let '(x, o, h, w) := carry f j h w in
    let '(xs, os, h, w) := errands f l h w in (CarryEnds x :: xs, o ++ os, h, w)
  | Call o :: l =>
    let '(x, w) := awaited_op cd E k o w in
    let '(xs, os, h, w) := errands f l h w in (CallEnds x :: xs, (o, x) :: os, h, w)
  end.
End Pipe.
Arguments Ended {cd E}. Arguments ReaderEnds {cd E}. Arguments WriterEnds {cd E}.
