(** What is asked of a decoder that is polled. *)
From Verif Require Import Base BaseFacts Headers Entry IO Reader EntryReader ReaderPolls SpecRead SpecReadPolls DecoderPolls.

(** the bytes that can still be read up to a limit *)
Definition ahead (s : source) (l : N) : bytes := firstn (N.to_nat l) (skipn (N.to_nat (s_pos s)) (s_data s)).
(** these bytes were read and nothing else happened to the source *)
Definition used (s : source) (l : N) (s' : source) (l' : N) (b : bytes) (u : list revent) : Prop :=
  s_data s' = s_data s /\ s_sched s = u ++ s_sched s' /\ s_pos s' = s_pos s + len b /\ l = l' + len b /\ ahead s l = b ++ ahead s' l'.
Definition malformed (e : io_error) : Prop := e = InvalidData \/ e = UnexpectedEof.

(** A decoder hands over a beginning of what its input decodes to; it says that there is no more only once it has handed
    over all of it and has read up to its end; it fails only because the source did or the input does not come to an end.
    [view] tells what it is doing: the method, the input read, the output handed over. [inv] are the states it can be in
    before the input that is ahead; it is not asked for after the input was found malformed. *)
Definition decoder_ok (cd : codec) (D : decoder) (view : dg_state D -> compression * bytes * bytes) (inv : dg_state D -> bytes -> Prop) : Prop :=
  (forall c w, view (dg_new D c) = (c, [], []) /\ inv (dg_new D c) w) /\
  forall n g s l, let '(p, g', s', l') := dg_poll D n g s l in
    let '(c, eaten, given) := view g in
    let '(c', eaten', given') := view g' in
    exists b u, used s l s' l' b u /\
      (inv g (ahead s l) ->
       c' = c /\ eaten' = eaten ++ b /\
       let whole := dec cd c (eaten' ++ ahead s' l') in
       match p with
       | RPend => given' = given /\ inv g' (ahead s' l')
       | RGot o => len o <= n /\ given' = given ++ o /\ inv g' (ahead s' l') /\ prefix given' (fst whole) /\
           (0 < n -> o = [] -> whole = (given', Some (len eaten')))
       | RErr e => given' = given /\ ((exists k, e = IoOther k /\ In (RFail k) u) /\ inv g' (ahead s' l') \/ malformed e /\ snd whole = None)
       end).
(** a poll that found the input malformed *)
Definition found_bad (x : read_call * rpoll) : Prop := match snd x with RErr e => malformed e | _ => False end.
