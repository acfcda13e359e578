(** The caller of Relay.v that trusts nothing: where it takes it that the header tells the checksum beforehand, it compares that with the one of what arrived
    (base/read/io/entry.rs 67-72 [compute_hash], hashed.rs 35-37) before it closes the new entry, and drops the new entry if they differ. Which entries those are
    is for the caller to say, since the flag of an entry is not public (entry/mod.rs). *)
From Verif Require Import Base Crc32 Headers Entry IO Reader EntryReader ReaderPolls StreamReader DecoderPolls DecoderWalk Writer StreamPolls EncoderPolls AwaitedWrites Piped Relay.

(** entry.rs 70-72, hashed.rs 35-37 *)
Definition dr_compute_hash {D} (r : dreader D) : N * dreader D :=
  (hasher_finalize (dr_hash r), {| dr_src := dr_src r; dr_limit := dr_limit r; dr_state := dr_state r; dr_hash := hasher_new |}).

Section Careful.
Context (cd : codec) (D : decoder) (E : engine cd) (k : nat) (cfg : config) (heed : zentry -> bool).

(** [Torn] and a source behind the entry: the checksums differ *)
Definition careful_one (y : relay_plan) (rd : reading) (w : world) : relayed * option (res source) * list (wop * option (res unit)) * world :=
  let r := dr_new D (er_src (rd_reader rd)) (er_comp (rd_reader rd)) (er_limit (rd_reader rd)) in
  match rp_as y (rd_entry rd) with
  | None => (PassedBy, dr_skip (rp_patience y) (rd_descriptor rd) r, [], w)
  | Some e =>
    let op c closed := OpStream false e (map SWriteAll c) closed in
    match stream_open cd false e w with
    | (Ok sw, w1) =>
      let '(x, r', c, w2) := pipe cd D E k (rp_buffers y) r (sw, match sw_enc sw with Some st => Some (eg_new E st) | None => None end) w1 in
      match x with
      | Ended o =>
        let '(h, r'') := dr_compute_hash r' in
        match dr_done (rp_patience y) (rd_descriptor rd) r'' with
        | Some (Ok s') =>
          if negb (heed (rd_entry rd)) || (h =? en_crc32 (rd_entry rd))
          then let '(z, w3) := shut cd E k o w2 in (Relayed z, Some (Ok s'), [(op c true, z)], w3)
          else (Torn, Some (Ok s'), [(op c false, Some (Ok tt))], w2)
        | t => (Torn, t, [(op c false, Some (Ok tt))], w2)
        end
      | ReaderEnds z => (Torn, match z with Some (Err e) => Some (Err e) | Some (Panic p) => Some (Panic p) | _ => None end, [(op c false, Some (Ok tt))], w2)
      | WriterEnds z => (CutOff z, dr_skip (rp_patience y) (rd_descriptor rd) r', [(op c false, z)], w2)
      end
    | (Err x, w1) => (CutOff (Some (Err x)), dr_skip (rp_patience y) (rd_descriptor rd) r, [(op [] true, Some (Err x))], w1)
    | (Panic p, w1) => (CutOff (Some (Panic p)), dr_skip (rp_patience y) (rd_descriptor rd) r, [(op [] true, Some (Panic p))], w1)
    end
  end.
Fixpoint careful (l : list relay_plan) (s : source) (w : world) : list (zentry * relayed) * option (res unit) * list (wop * option (res unit)) * world :=
  match l with
  | [] => ([], None, [], w)
  | y :: l =>
    match stream_next cfg s with
    | (Ok None, _) => ([], Some (Ok tt), [], w)
    | (Err e, _) => ([], Some (Err e), [], w)
    | (Panic p, _) => ([], Some (Panic p), [], w)
    | (Ok (Some rd), _) =>
      let '(x, t, o, w) := careful_one y rd w in
      match t with
      | Some (Ok s') => let '(xs, z, os, w) := careful l s' w in ((rd_entry rd, x) :: xs, z, o ++ os, w)
      | Some (Err e) => ([(rd_entry rd, x)], Some (Err e), o, w)
      | Some (Panic p) => ([(rd_entry rd, x)], Some (Panic p), o, w)
      | None => ([(rd_entry rd, x)], None, o, w)
      end
    end
  end.
End Careful.
