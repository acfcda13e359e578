(** Property C59. *)
From Verif Require Import Base BaseFacts SpecFormat SpecCrc SpecArchive SpecRead ZString ZDate Headers ExtraField Entry IO IOFacts Reader EntryReader
  Samples ReaderPolls SpecReadPolls ReadPollProofs.

(** * C59. Entries of a seekable archive can be polled, given up, failed and taken up again in any way. *)
(** One reader, polled in any way: what it hands over is a beginning of the content, and all of it once a poll says so; the running
    hash and every checked read afterwards are about exactly the bytes handed over. *)
Theorem C59_entry cd f i l s r e s' : seek_reader_at f i s = (Ok (r, e), s') ->
  let '(ps, r') := er_polls cd l r in
  let whole := decoded cd (en_compression (st_entry e)) (region (s_data s) e) in
  prefix (told ps) (fst whole) /\
  (Exists at_end ps -> whole = (told ps, true)) /\
  fst (er_compute_hash r') = Ok (crc32_spec (told ps)) /\
  (forall b, fst (er_read_to_end cd r') = Ok b -> whole = (told ps ++ b, true)) /\
  (forall b, fst (er_read_to_end_checked cd (st_entry e) r') = Ok b <->
     fst (er_read_to_end cd r') = Ok b /\ crc32_spec (told ps ++ b) = en_crc32 (st_entry e)).
Proof. exact (polled_entry cd f i l s r e s'). Qed.
Print Assumptions C59_entry.
(** Any history of such readers on one source, with opens that fail as well: each hands over a beginning of its own entry. *)
Theorem C59_history cd f h s : let '(xs, s') := polled_uses cd f h s in
  Forall2 (fun u x => match x with
    | (Ok e, ps) => entry_at f (fst u) = Some e /\
        let whole := decoded cd (en_compression (st_entry e)) (region (s_data s) e) in
        prefix (told ps) (fst whole) /\ (Exists at_end ps -> whole = (told ps, true))
    | (_, ps) => ps = []
    end) h xs.
Proof. exact (history cd f h s). Qed.
Print Assumptions C59_history.
(** And afterwards every entry reads as from a fresh source, unless the source fails again. *)
Theorem C59_afterwards cd f h i s : let '(_, s') := polled_uses cd f h s in
  read_entry cd f i s' = read_entry cd f i (cursor (s_data s)) \/
  exists c, In (RFail c) (s_sched s') /\ read_entry cd f i s' = Err (UpstreamReadError (IoOther c)).
Proof. exact (after_history cd f h i s). Qed.
Print Assumptions C59_afterwards.

Definition unruly : source :=
  {| s_data := sample; s_pos := 77;
     s_sched := [RChunk 99; RPending; RChunk 99;
                 RFail 3; RPending; RChunk 1; RFail 4;
                 RChunk 0; RFail 5;
                 RPending; RChunk 99; RChunk 99; RChunk 0; RPending; RFail 6; RChunk 0; RChunk 9; RChunk 9] |}.
Example C59_case :
  match fst (file cfg0 (cursor sample)) with
  | Ok f =>
    let '(xs, s') := polled_uses toy f
      [(0, [PollRead 9; PollReadVectored [0; 2; 1]; PollRead 0; PollRead 2; PollRead 9]); (1, [PollRead 4]);
       (1, [PollRead 5; PollRead 5; PollReadVectored [0; 0; 5]; PollRead 5; PollRead 5])] unruly in
    map snd xs =
      [[(PollRead 9, RErr (IoOther 3)); (PollReadVectored [0; 2; 1], RPend); (PollRead 0, RGot []); (PollRead 2, RErr (IoOther 4)); (PollRead 9, RGot [x68])];
       [];
       [(PollRead 5, RGot [x78]); (PollRead 5, RPend); (PollReadVectored [0; 0; 5], RErr (IoOther 6)); (PollRead 5, RGot [x79]); (PollRead 5, RGot [])]] /\
    read_entry toy f 0 s' = Ok data1
  | _ => False
  end.
Proof. vm_compute. split; reflexivity. Qed.
