(** Asynchronous sources and sinks with adversarial schedules, and the futures-lite
    combinators the crate uses on them (futures-lite itself is not in /repo; the loops below are
    its documented behaviour). *)
From Verif Require Import Base.

(** State monad with results; the state survives errors, as a Rust [&mut] does. *)
Definition SM (S A : Type) : Type := S -> res A * S.
Definition ret {S A} (a : A) : SM S A := fun s => (Ok a, s).
Definition fail {S A} (e : zip_error) : SM S A := fun s => (Err e, s).
Definition lift {S A} (r : res A) : SM S A := fun s => (r, s).
Definition bind {S A B} (m : SM S A) (f : A -> SM S B) : SM S B :=
  fun s => match m s with
           | (Ok a, s') => f a s'
           | (Err e, s') => (Err e, s')
           | (Panic p, s') => (Panic p, s')
           end.
Definition get {S} : SM S S := fun s => (Ok s, s).
Definition put {S} (s : S) : SM S unit := fun _ => (Ok tt, s).
Definition modify {S} (f : S -> S) : SM S unit := fun s => (Ok tt, f s).

Notation "x <- m ;; k" := (bind m (fun x => k))
  (at level 61, m at next level, right associativity).
Notation "' p <- m ;; k" := (bind m (fun x => match x with p => k end))
  (at level 61, p pattern, m at next level, right associativity).
Notation "m ;;; k" := (bind m (fun _ => k)) (at level 61, right associativity).

(** ** Sources: AsyncRead + AsyncSeek *)

(** One adversarial outcome of [poll_read]. [RChunk k] delivers at most [k+1] bytes. *)
Inductive revent := RPending | RChunk (k : N) | RFail (code : N).

(** A byte source. After the scheduled outcomes are used up it delivers all that is asked for. *)
Record source := { s_data : bytes; s_pos : N; s_sched : list revent }.

Definition set_pos (s : source) (p : N) : source :=
  {| s_data := s_data s; s_pos := p; s_sched := s_sched s |}.

Inductive rpoll := RPend | RGot (b : bytes) | RErr (e : io_error).

(** [AsyncRead::poll_read] with a buffer of [n] bytes: RGot [] means end of file (or n = 0). *)
Definition poll_read (n : N) (s : source) : rpoll * source :=
  let got k r := let b := take k (drop (s_pos s) (s_data s)) in
                 (RGot b, {| s_data := s_data s; s_pos := s_pos s + len b; s_sched := r |}) in
  match s_sched s with
  | [] => got n []
  | RPending :: r => (RPend, {| s_data := s_data s; s_pos := s_pos s; s_sched := r |})
  | RChunk k :: r => got (N.min n (k + 1)) r
  | RFail c :: r => (RErr (IoOther c), {| s_data := s_data s; s_pos := s_pos s; s_sched := r |})
  end.

(** [reader.read(buf).await]: re-poll while pending. *)
Fixpoint read_poll (fuel : nat) (n : N) (s : source) : res bytes * source :=
  match fuel with
  | O => (Panic PFuel, s)
  | S f =>
    match poll_read n s with
    | (RPend, s') => read_poll f n s'
    | (RGot b, s') => (Ok b, s')
    | (RErr e, s') => (Err (UpstreamReadError e), s')
    end
  end.
Definition read (n : N) : SM source bytes := fun s => read_poll (S (length (s_sched s))) n s.

(** futures-lite [read_exact]: read until [n] bytes arrived; zero bytes is UnexpectedEof. *)
Fixpoint read_exact_loop (fuel : nat) (n : N) : SM source bytes :=
  match fuel with
  | O => lift (Panic PFuel)
  | S f =>
    if n =? 0 then ret []
    else b <- read n ;;
         if len b =? 0 then fail (UpstreamReadError UnexpectedEof)
         else r <- read_exact_loop f (n - len b) ;; ret (b ++ r)
  end.
Definition read_exact (n : N) : SM source bytes :=
  fun s => read_exact_loop (S (S (length (s_sched s)))) n s.

(** futures-lite [take(limit).read_to_end]: read until the limit is used up or zero bytes
    arrive; never an end-of-file error. *)
Fixpoint read_to_end_loop (fuel : nat) (limit : N) : SM source bytes :=
  match fuel with
  | O => lift (Panic PFuel)
  | S f =>
    if limit =? 0 then ret []
    else b <- read limit ;;
         if len b =? 0 then ret []
         else r <- read_to_end_loop f (limit - len b) ;; ret (b ++ r)
  end.
Definition read_to_end_take (limit : N) : SM source bytes :=
  fun s => read_to_end_loop (S (S (length (s_sched s)))) limit s.

(** [seek(SeekFrom::Start(p))], [seek(SeekFrom::End(0))], [seek(SeekFrom::Current(d))] with
    [Cursor] semantics: positions past the end are allowed, a u64 overflow is InvalidInput. *)
Definition seek_start (p : N) : SM source N := fun s => (Ok p, set_pos s p).
Definition seek_end : SM source N :=
  fun s => let p := len (s_data s) in (Ok p, set_pos s p).
Definition seek_current (d : N) : SM source N :=
  fun s => let p := s_pos s + d in
           if p <=? u64_max then (Ok p, set_pos s p)
           else (Err (UpstreamReadError InvalidInput), s).

(** base/read/io/mod.rs 25-33 [read_bytes] *)
Definition read_bytes (length : N) : SM source bytes := read_to_end_take length.

(** ** Sinks: AsyncWrite *)

(** One adversarial outcome of [poll_write]. [WAccept k] accepts at most [k] bytes (possibly 0). *)
Inductive wevent := WPending | WAccept (k : N) | WFail (code : N).

Record sink := { k_written : bytes; k_flushes : N; k_closes : N; k_sched : list wevent }.

Inductive wpoll := WPend | WDone (n : N) | WErr (e : io_error).

(** [AsyncWrite::poll_write] of the caller's writer. *)
Definition sink_poll_write (buf : bytes) (k : sink) : wpoll * sink :=
  let acc n r := let n := N.min n (len buf) in
      (WDone n, {| k_written := k_written k ++ take n buf; k_flushes := k_flushes k;
                   k_closes := k_closes k; k_sched := r |}) in
  let same r := {| k_written := k_written k; k_flushes := k_flushes k; k_closes := k_closes k; k_sched := r |} in
  match k_sched k with
  | [] => acc (len buf) []
  | WPending :: r => (WPend, same r)
  | WAccept n :: r => acc n r
  | WFail c :: r => (WErr (IoOther c), same r)
  end.

(** [AsyncWrite::poll_flush] / [poll_close] of the caller's writer. *)
Definition sink_poll_flush (k : sink) : wpoll * sink :=
  let same r d := {| k_written := k_written k; k_flushes := k_flushes k + d; k_closes := k_closes k; k_sched := r |} in
  match k_sched k with
  | [] => (WDone 0, same [] 1)
  | WPending :: r => (WPend, same r 0)
  | WAccept _ :: r => (WDone 0, same r 1)
  | WFail c :: r => (WErr (IoOther c), same r 0)
  end.
Definition sink_poll_close (k : sink) : wpoll * sink :=
  let same r d := {| k_written := k_written k; k_flushes := k_flushes k; k_closes := k_closes k + d; k_sched := r |} in
  match k_sched k with
  | [] => (WDone 0, same [] 1)
  | WPending :: r => (WPend, same r 0)
  | WAccept _ :: r => (WDone 0, same r 1)
  | WFail c :: r => (WErr (IoOther c), same r 0)
  end.
