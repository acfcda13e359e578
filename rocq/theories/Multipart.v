(** examples/actix_multipart.rs: an archive of the parts of an uploaded form. *)
From Verif Require Import Base ZString Headers Entry IO EntryReader Writer Compress.

(** A part as actix_multipart hands it out: the file name it carries, if any, and its chunks; [None] stands for an error
    of the connection. *)
Record part := { pt_filename : option bytes; pt_chunks : list (option bytes) }.

(** [unwrap] *)
Definition unwrapped {A} (r : res A) : cli A := match r with Ok a => Done a | Err _ => Broke PUnwrap | Panic p => Broke p end.

(** actix_multipart.rs 65-67: the chunks of one part *)
Fixpoint write_chunks {cd} (sw : stream_writer cd) (l : list (option bytes)) (w : world) : cli (stream_writer cd) * world :=
  match l with
  | [] => (Done sw, w)
  | None :: _ => (Bail, w)
  | Some b :: l =>
    match stream_write_all sw b w with
    | (Ok sw, w) => write_chunks sw l w
    | (Err e, w) => (Failed e, w)
    | (Panic p, w) => (Broke p, w)
    end
  end.
(** 57-69; [sanitize] is sanitize_filename::sanitize, [uuid] gives the names made up, one for each part *)
Definition write_part (cd : codec) (sanitize : bytes -> bytes) (uuid : bytes) (x : part) (w : world) : cli unit * world :=
  let name := match pt_filename x with Some n => sanitize n | None => uuid end in
  match stream_open cd false (entry_new (zs_from_string name) Deflate) w with
  | (Ok sw, w) =>
    match write_chunks sw (pt_chunks x) w with
    | (Done sw, w) => let '(r, w) := stream_close sw w in (unwrapped r, w)
    | (Bail, w) => (Bail, w)
    | (Failed e, w) => (Failed e, w)
    | (Broke p, w) => (Broke p, w)
    end
  | (Err _, w) => (Broke PUnwrap, w)
  | (Panic p, w) => (Broke p, w)
  end.
(** 54-70: the parts, with the names made up for them; [None] is an error of the connection *)
Fixpoint write_parts (cd : codec) (sanitize : bytes -> bytes) (uuid : N -> bytes) (k : N) (l : list (option part)) (w : world) : cli unit * world :=
  match l with
  | [] => (Done tt, w)
  | None :: _ => (Bail, w)
  | Some x :: l =>
    match write_part cd sanitize (uuid k) x w with
    | (Done _, w) => write_parts cd sanitize uuid (k + 1) l w
    | y => y
    end
  end.
(** 49-76 [create_archive]; the file can be made and shut or not *)
Definition create_archive (cd : codec) (sched : list wevent) (sanitize : bytes -> bytes) (uuid : N -> bytes) (creates shuts : bool)
    (l : list (option part)) : cli unit * option world :=
  if negb creates then (Bail, None)
  else
    match write_parts cd sanitize uuid 0 l (zw_new sched) with
    | (Done _, w) =>
      match zw_close w with
      | (Ok _, w) => (if shuts then Done tt else Broke PUnwrap, Some w)
      | (Err _, w) => (Broke PUnwrap, Some w)
      | (Panic p, w) => (Broke p, Some w)
      end
    | (x, w) => (x, Some w)
    end.
