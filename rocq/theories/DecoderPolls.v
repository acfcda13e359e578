(** base/read/io/{entry,hashed,compressed}.rs with a decoder of async-compression that goes about it in its own way: it may
    poll the source any number of times in one poll, and keep output. ([EntryReader] has one particular decoder instead.) *)
From Verif Require Import Base Crc32 Headers Entry IO Reader EntryReader ReaderPolls.

(** A decoder over [Take]; it polls the source, of which it may use up to the given limit, and returns both. *)
Record decoder := {
  dg_state : Type;
  dg_new : compression -> dg_state;
  dg_poll : N -> dg_state -> source -> N -> rpoll * dg_state * source * N }.

(** entry.rs 23-27; no decoder for stored entries (compressed.rs 16-30, 44-60) *)
Record dreader (D : decoder) := { dr_src : source; dr_limit : N; dr_state : option (dg_state D); dr_hash : hasher }.
Arguments dr_src {D}. Arguments dr_limit {D}. Arguments dr_state {D}. Arguments dr_hash {D}.
Definition dr_new (D : decoder) (s : source) (c : compression) (size : N) : dreader D :=
  {| dr_src := s; dr_limit := size; dr_state := match c with Stored => None | c => Some (dg_new D c) end; dr_hash := hasher_new |}.

(** compressed.rs 82-103 *)
Definition dr_inner_poll {D} (n : N) (r : dreader D) : rpoll * dreader D :=
  match dr_state r with
  | None =>
    if dr_limit r =? 0 then (RGot [], r)
    else
      let '(p, s) := poll_read (N.min n (dr_limit r)) (dr_src r) in
      let taken := match p with RGot b => len b | _ => 0 end in
      (p, {| dr_src := s; dr_limit := dr_limit r - taken; dr_state := None; dr_hash := dr_hash r |})
  | Some g =>
    let '(p, g, s, l) := dg_poll D n g (dr_src r) (dr_limit r) in
    (p, {| dr_src := s; dr_limit := l; dr_state := Some g; dr_hash := dr_hash r |})
  end.
(** hashed.rs 45-56, entry.rs 54-61 *)
Definition dr_poll_read {D} (n : N) (r : dreader D) : rpoll * dreader D :=
  match dr_inner_poll n r with
  | (RGot b, r') => (RGot b, {| dr_src := dr_src r'; dr_limit := dr_limit r'; dr_state := dr_state r'; dr_hash := hasher_update (dr_hash r') b |})
  | (p, r') => (p, r')
  end.
Definition dr_poll {D} (c : read_call) (r : dreader D) : rpoll * dreader D :=
  match c with PollRead n => dr_poll_read n r | PollReadVectored ns => dr_poll_read (first_room ns) r end.
Fixpoint dr_polls {D} (l : list read_call) (r : dreader D) : list (read_call * rpoll) * dreader D :=
  match l with
  | [] => ([], r)
  | c :: l => let '(p, r) := dr_poll c r in let '(ps, r) := dr_polls l r in ((c, p) :: ps, r)
  end.

(** futures-lite [read_to_end], polled with buffers of these sizes and given up when there are no more ([None]) *)
Fixpoint dr_to_end {D} (ns : list N) (r : dreader D) : option (res bytes) * dreader D :=
  match ns with
  | [] => (None, r)
  | n :: ns =>
    match dr_poll_read n r with
    | (RPend, r') => dr_to_end ns r'
    | (RErr e, r') => (Some (Err (UpstreamReadError e)), r')
    | (RGot [], r') => (Some (Ok []), r')
    | (RGot b, r') => match dr_to_end ns r' with (Some (Ok x), r'') => (Some (Ok (b ++ x)), r'') | y => y end
    end
  end.
(** entry.rs 92-100 *)
Definition dr_to_end_checked {D} (ns : list N) (e : zentry) (r : dreader D) : option (res bytes) :=
  match dr_to_end ns r with
  | (Some (Ok b), r') => Some (if hasher_finalize (dr_hash r') =? en_crc32 e then Ok b else Err CRC32CheckError)
  | (x, _) => x
  end.
(** open an entry and read it, as [read_entry] does *)
Definition d_read_entry (D : decoder) (ns : list N) (f : zfile) (index : N) (s : source) : option (res bytes) :=
  match seek_reader_at f index s with
  | (Ok (r, e), _) => dr_to_end_checked ns (st_entry e) (dr_new D (er_src r) (er_comp r) (er_limit r))
  | (Err x, _) => Some (Err x)
  | (Panic p, _) => Some (Panic p)
  end.
