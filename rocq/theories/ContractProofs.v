(** Proofs: polls keep the contract. *)
From Verif Require Import Base BaseFacts SpecReadPolls SpecContract Crc32 Headers Entry IO EntryReader Writer ReaderPolls StreamPolls EntryReaderFacts ReadPollProofs.
Arguments N.add : simpl never.
Arguments N.sub : simpl never.
Arguments N.min : simpl never.

Lemma read_contract cd n r : let '(p, r') := er_poll_read cd n r in
  match p with
  | RPend => exists q, s_sched (er_src r) = RPending :: q /\ r' = r_waited r q
  | RGot b => len b <= n /\ (s_sched (er_src r') = s_sched (er_src r) \/ exists k, s_sched (er_src r) = RChunk k :: s_sched (er_src r'))
  | RErr e => (exists c q, e = IoOther c /\ s_sched (er_src r) = RFail c :: q /\ r' = r_waited r q) \/
      e = InvalidData /\ er_comp r <> Stored /\ (r' = r_waited r (s_sched (er_src r)) \/ exists k q, s_sched (er_src r) = RChunk k :: q /\ r' = r_waited r q)
  end.
Proof.
  unfold er_poll_read, inner_poll_read. destruct r as [[d p q] lim comp out fin h]. cbn [er_src er_limit er_comp er_out er_fin er_hash s_data s_pos s_sched].
  destruct comp.
  { destruct (lim =? 0); [split; [change (len (@nil byte)) with 0; lia|now left]|].
    unfold poll_read. cbn [er_src s_data s_pos s_sched]. destruct q as [|[|k|c] q].
    - split; [rewrite len_take; lia|now left].
    - exists q. split; [reflexivity|]. unfold r_waited. cbn. now rewrite N.sub_0_r, N.add_0_r.
    - split; [rewrite len_take; lia|right; now exists k].
    - left. exists c, q. split; [reflexivity|]. split; [reflexivity|]. unfold r_waited. cbn. now rewrite N.sub_0_r, N.add_0_r. }
  all: destruct ((n =? 0) || fin); [split; [change (len (@nil byte)) with 0; lia|now left]|].
  all: destruct (dec cd _ _) as [o fn]; cbv zeta; destruct q as [|[|k|c] q].
  all: try (exists q; split; reflexivity).
  all: try (left; exists c, q; repeat split; reflexivity).
  all: match goal with |- context [len ?x =? 0] => destruct (len x =? 0) eqn:L end; try destruct fn; cbn [er_src with_sched set_pos s_sched set_hash].
  all: try (split; [rewrite ?len_take; change (len (@nil byte)) with 0; lia|first [now left|right; now exists k]]).
  all: right; split; [reflexivity|]; split; [discriminate|]; first [left; reflexivity|right; exists k, q; split; reflexivity].
Qed.
Lemma first_room_le ns : first_room ns <= fold_right N.add 0 ns.
Proof. induction ns as [|n ns IH]; cbn [first_room fold_right]; [lia|]. destruct (n =? 0); lia. Qed.
Lemma read_poll_contract cd c r : let '(p, r') := er_poll cd c r in
  match p with
  | RPend => exists q, s_sched (er_src r) = RPending :: q /\ r' = r_waited r q
  | RGot b => len b <= room c /\ (s_sched (er_src r') = s_sched (er_src r) \/ exists k, s_sched (er_src r) = RChunk k :: s_sched (er_src r')) /\
      (has_room c -> b = [] -> forall l, told (fst (er_polls cd l r')) = [])
  | RErr e => (exists c q, e = IoOther c /\ s_sched (er_src r) = RFail c :: q /\ r' = r_waited r q) \/
      e = InvalidData /\ er_comp r <> Stored /\ (r' = r_waited r (s_sched (er_src r)) \/ exists k q, s_sched (er_src r) = RChunk k :: q /\ r' = r_waited r q)
  end.
Proof.
  assert (X : forall n, n <= room c -> (has_room c -> 0 < n) -> let '(p, r') := er_poll_read cd n r in
    match p with
    | RPend => exists q, s_sched (er_src r) = RPending :: q /\ r' = r_waited r q
    | RGot b => len b <= room c /\ (s_sched (er_src r') = s_sched (er_src r) \/ exists k, s_sched (er_src r) = RChunk k :: s_sched (er_src r')) /\
        (has_room c -> b = [] -> forall l, told (fst (er_polls cd l r')) = [])
    | RErr e => (exists c q, e = IoOther c /\ s_sched (er_src r) = RFail c :: q /\ r' = r_waited r q) \/
        e = InvalidData /\ er_comp r <> Stored /\ (r' = r_waited r (s_sched (er_src r)) \/ exists k q, s_sched (er_src r) = RChunk k :: q /\ r' = r_waited r q)
    end).
  { intros n L H. pose proof (read_contract cd n r) as C. pose proof (poll_spec cd n r) as S. destruct (er_poll_read cd n r) as [[|b|e] r']; try exact C.
    destruct C as [C1 C2]. split; [lia|]. split; [exact C2|]. intros HR -> l. destruct (S (H HR)) as (S1 & S2 & _).
    destruct (steps_spent _ _ _ _ S1 (S2 eq_refl)) as [_ S3]. pose proof (polls_steps cd l r') as P. destruct (er_polls cd l r') as [ps r2]. destruct P as [P _].
    now destruct (steps_spent _ _ _ _ P S3) as [P2 _]. }
  destruct c as [n|ns]; cbn [er_poll]; apply X; cbn [room has_room].
  - lia.
  - auto.
  - apply first_room_le.
  - clear. induction ns as [|n ns IH]; intros (m & I & P); [destruct I|]. cbn [first_room]. destruct (N.eqb_spec n 0) as [->|]; [|lia].
    apply IH. exists m. split; [|exact P]. destruct I as [<-|I]; [lia|exact I].
Qed.
Lemma first_buffer_prefix bs : exists rest, concat bs = first_buffer bs ++ rest.
Proof. induction bs as [|[|x b] bs IH]; cbn [first_buffer concat]; [now exists []|exact IH|now exists (concat bs)]. Qed.
Lemma write_poll_contract cd (c : poll_call) (sw : stream_writer cd) w : let '(p, sw', w') := raw_poll c sw w in
  match p with
  | WPend => sw' = sw /\ exists q, k_sched (w_sink w) = WPending :: q /\ w' = w_waited w q
  | WErr e => sw' = sw /\ exists x q, e = IoOther x /\ k_sched (w_sink w) = WFail x :: q /\ w' = w_waited w q
  | WDone n => n <= len (offered c) /\ w_bytes w' = w_bytes w ++ take n (offered c) /\ w_offset w' = w_offset w + n /\ sw_uoffset sw' = sw_uoffset sw + n /\
      (c = PollClose -> sw' = sw /\ w' = w)
  end.
Proof.
  assert (X : forall b, (exists rest, offered c = b ++ rest) -> c <> PollClose -> let '(p, sw', w') := raw_poll_write sw b w in
    match p with
    | WPend => sw' = sw /\ exists q, k_sched (w_sink w) = WPending :: q /\ w' = w_waited w q
    | WErr e => sw' = sw /\ exists x q, e = IoOther x /\ k_sched (w_sink w) = WFail x :: q /\ w' = w_waited w q
    | WDone n => n <= len (offered c) /\ w_bytes w' = w_bytes w ++ take n (offered c) /\ w_offset w' = w_offset w + n /\ sw_uoffset sw' = sw_uoffset sw + n /\
        (c = PollClose -> sw' = sw /\ w' = w)
    end).
  { intros b (rest & E) NC. unfold raw_poll_write, ow_poll_write, sink_poll_write. destruct (k_sched (w_sink w)) as [|[|k|x] q] eqn:Q.
    - cbn [w_offset set_sink sw_uoffset sw_advance]. rewrite E, len_app. split; [lia|]. split; [|split; [reflexivity|split; [reflexivity|easy]]].
      unfold w_bytes. cbn [w_sink set_sink k_written]. f_equal. rewrite N.min_id, take_app_exact by reflexivity. now rewrite take_all by lia.
    - split; [reflexivity|]. now exists q.
    - cbn [w_offset set_sink sw_uoffset sw_advance]. rewrite E, len_app. split; [lia|]. split; [|split; [reflexivity|split; [reflexivity|easy]]].
      unfold w_bytes. cbn [w_sink set_sink k_written]. f_equal. rewrite take_app_le by lia. reflexivity.
    - split; [reflexivity|]. now exists x, q. }
  destruct c as [b|bs| |]; cbn [raw_poll].
  - apply X; [exists []; now rewrite app_nil_r|discriminate].
  - apply X; [apply first_buffer_prefix|discriminate].
  - unfold ow_poll_flush, sink_poll_flush. destruct (k_sched (w_sink w)) as [|[|k|x] q] eqn:Q; cbn [offered].
    1,3: unfold w_bytes; cbn; rewrite app_nil_r, !N.add_0_r; repeat split; try lia; discriminate.
    all: unfold set_sink, w_waited; rewrite !N.add_0_r; (split; [reflexivity|]); first [now exists q|now exists x, q].
  - cbn [offered]. rewrite app_nil_r. repeat split; lia.
Qed.
