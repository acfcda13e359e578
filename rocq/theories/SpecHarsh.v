(** What a reader around any decoder hands over when the source's seeks are troublesome. *)
From Verif Require Import Base BaseFacts SpecArchive SpecRead Headers Entry IO Reader EntryReader ReaderPolls SpecReadPolls GiveUp Seeks SpecSeeks DecoderPolls SpecDecoder.

(** How one use of the reader ends. Up to the poll that finds the data malformed, if there is one, the polls hand over a beginning of the entry,
    and all of it once one of them says so; their errors are ones the source reports. *)
Definition dh_outcome (cd : codec) (f : zfile) (h : harsh) (u : N * nat * list read_call) (x : seen stored_entry * list (read_call * rpoll)) : Prop :=
  let '(i, n, l) := u in
  let '(r, ps) := x in
  let d := s_data (h_src h) in
  match r with
  | Finished (Ok e) => opened_from f i d = Ok e /\ map fst ps = l /\
      let whole := decoded cd (en_compression (st_entry e)) (region d e) in
      (Exists found_bad ps -> snd whole = false) /\
      forall ps1 ps2, ps = ps1 ++ ps2 -> ~ Exists found_bad ps1 ->
        prefix (told ps1) (fst whole) /\ (Exists at_end ps1 -> whole = (told ps1, true)) /\
        forall c x, In (c, RErr x) ps1 -> exists k, x = IoOther k /\ reports h k
  | Finished r => ps = [] /\
      (r = opened_from f i d \/
       (exists c, reports h c /\ r = Err (UpstreamReadError (IoOther c))) \/
       r = Err (UpstreamReadError InvalidInput) /\ (roomy h -> forall e, opened_from f i d <> Ok e))
  | Left => ps = [] /\ (n < waits h)%nat
  end.
