(** A caller that has the old archive as a stream only (base/read/stream.rs): it goes through it entry by entry and either passes an entry by or copies it into the
    new archive while it arrives, under the name it chooses. It calls [done] before it closes the new entry, since only that tells that the old one was whole. *)
From Verif Require Import Base Headers Entry IO Reader EntryReader ReaderPolls StreamReader DecoderPolls DecoderWalk Writer StreamPolls EncoderPolls AwaitedWrites Piped.

(** what to do with the entry at hand, with which buffers, and how often [done] and [skip] are polled *)
Record relay_plan := { rp_as : zentry -> option zentry; rp_buffers : list N; rp_patience : nat }.
(** passed by; poured to the end, and this is how closing ended; the writer ended before; the old archive did *)
Inductive relayed := PassedBy | Relayed (y : option (res unit)) | CutOff (y : option (res unit)) | Torn.

Section Relay.
Context (cd : codec) (D : decoder) (E : engine cd) (k : nat) (cfg : config).

(** one entry; where the source is behind it, or why it is not, as [done] and [skip] say *)
Definition relay_one (y : relay_plan) (rd : reading) (w : world) : relayed * option (res source) * list (wop * option (res unit)) * world :=
  let r := dr_new D (er_src (rd_reader rd)) (er_comp (rd_reader rd)) (er_limit (rd_reader rd)) in
  match rp_as y (rd_entry rd) with
  | None => (PassedBy, dr_skip (rp_patience y) (rd_descriptor rd) r, [], w)
  | Some e =>
    let op c closed := OpStream false e (map SWriteAll c) closed in
    match stream_open cd false e w with
    | (Ok sw, w1) =>
      let '(x, r', c, w2) := pipe cd D E k (rp_buffers y) r (sw, match sw_enc sw with Some st => Some (eg_new E st) | None => None end) w1 in
      match x with
      | Ended o =>
        match dr_done (rp_patience y) (rd_descriptor rd) r' with
        | Some (Ok s') => let '(z, w3) := shut cd E k o w2 in (Relayed z, Some (Ok s'), [(op c true, z)], w3)
        | t => (Torn, t, [(op c false, Some (Ok tt))], w2)
        end
      | ReaderEnds z => (Torn, match z with Some (Err e) => Some (Err e) | Some (Panic p) => Some (Panic p) | _ => None end, [(op c false, Some (Ok tt))], w2)
      | WriterEnds z => (CutOff z, dr_skip (rp_patience y) (rd_descriptor rd) r', [(op c false, z)], w2)
      end
    | (Err x, w1) => (CutOff (Some (Err x)), dr_skip (rp_patience y) (rd_descriptor rd) r, [(op [] true, Some (Err x))], w1)
    | (Panic p, w1) => (CutOff (Some (Panic p)), dr_skip (rp_patience y) (rd_descriptor rd) r, [(op [] true, Some (Panic p))], w1)
    end
  end.
Fixpoint relay (l : list relay_plan) (s : source) (w : world) : list (zentry * relayed) * option (res unit) * list (wop * option (res unit)) * world :=
  match l with
  | [] => ([], None, [], w)
  | y :: l =>
    match stream_next cfg s with
    | (Ok None, _) => ([], Some (Ok tt), [], w)
    | (Err e, _) => ([], Some (Err e), [], w)
    | (Panic p, _) => ([], Some (Panic p), [], w)
    | (Ok (Some rd), _) =>
      let '(x, t, o, w) := relay_one y rd w in
      match t with
      | Some (Ok s') => let '(xs, z, os, w) := relay l s' w in ((rd_entry rd, x) :: xs, z, o ++ os, w)
      | Some (Err e) => ([(rd_entry rd, x)], Some (Err e), o, w)
      | Some (Panic p) => ([(rd_entry rd, x)], Some (Panic p), o, w)
      | None => ([(rd_entry rd, x)], None, o, w)
      end
    end
  end.
End Relay.
