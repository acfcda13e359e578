(** Proofs: a walk through the stream over a source that fails. *)
From Verif Require Import Base BaseFacts SpecFormat SpecCrc SpecArchive SpecRead SpecStream SpecStrict SpecExact SpecThrough ZString Headers HeadersFacts ExtraField
  Entry IO IOFacts Reader ReaderFacts LfhFacts EntryReader EntryReaderFacts EntryProofs ReadProofs StreamReader StreamProofs RoundTrip StreamWalk FrontProofs
  StrictProofs ExactProofs ExactTop ThroughProofs.
Arguments N.mul : simpl never.
Arguments N.add : simpl never.
Arguments N.sub : simpl never.
Arguments N.min : simpl never.

Definition faulty {A} (s : source) (r : res A) : Prop := exists c, In (RFail c) (s_sched s) /\ r = Err (UpstreamReadError (IoOther c)).
Definition later (s s' : source) : Prop := s_data s' = s_data s /\ exists u, s_sched s = u ++ s_sched s'.
Lemma later_refl s : later s s.
Proof. split; [reflexivity|now exists []]. Qed.
Lemma later_trans s1 s2 s3 : later s1 s2 -> later s2 s3 -> later s1 s3.
Proof. intros (A & u & B) (C & v & D). split; [congruence|]. exists (u ++ v). now rewrite <- app_assoc, <- D. Qed.
Lemma faulty_later {A} s s' (r : res A) : later s s' -> faulty s' r -> faulty s r.
Proof. intros (_ & u & U) (c & I & E). exists c. split; [rewrite U; apply in_or_app; now right|exact E]. Qed.
Lemma used_faulty {A} s q pre c : s_sched s = (pre ++ [RFail c]) ++ q -> @faulty A s (Err (UpstreamReadError (IoOther c))).
Proof. intro E. exists c. split; [rewrite E; apply in_or_app; left; apply in_or_app; right; now left|reflexivity]. Qed.
Lemma steps_later cd r r' b : steps cd r r' b -> later (er_src r) (er_src r').
Proof. intros S. split; [apply (st_data _ _ _ _ S)|apply (st_sched _ _ _ _ S)]. Qed.

Lemma skip_any cd : forall f r, (length (fst (content cd r)) < f)%nat ->
  let '(x, r') := skip_loop cd f r in
  faulty (er_src r) x \/
  (if snd (content cd r) then x = Ok tt /\ later (er_src r) (er_src r') /\ s_pos (er_src r') = er_end cd r else x = Err (UpstreamReadError InvalidData)).
Proof.
  induction f as [|f IH]; intros r Hf; [lia|]. cbn [skip_loop]. unfold bind.
  pose proof (er_read_spec cd 2048 r ltac:(lia)) as P. pose proof (read_eof cd 2048 r) as E.
  destruct (er_read cd 2048 r) as [x r1]. destruct P as (u & Hu & P). destruct x as [b|[]|]; try easy.
  - destruct P as (S & H & Hn). pose proof (steps_content _ _ _ _ S) as C. destruct (len b =? 0) eqn:L.
    + apply N.eqb_eq, len_nil0 in L. subst b. right. rewrite (H eq_refl). split; [reflexivity|]. split; [exact (steps_later _ _ _ _ S)|]. now apply E.
    + rewrite C in Hf |- *. cbn [fst snd] in *. rewrite app_length in Hf.
      assert (0 < length b)%nat by (apply N.eqb_neq in L; unfold len in L; lia).
      specialize (IH r1 ltac:(lia)). destruct (skip_loop cd f r1) as [y r2]. pose proof (steps_later _ _ _ _ S) as LA.
      destruct IH as [F|IH]; [left; exact (faulty_later _ _ _ LA F)|right].
      pose proof (st_end _ _ _ _ S) as SE. rewrite C in SE. cbn [snd] in SE.
      destruct (snd (content cd r1)); [|exact IH]. destruct IH as (I1 & I2 & I3). split; [exact I1|]. split; [exact (later_trans _ _ _ LA I2)|]. now rewrite I3, SE.
  - destruct P as (_ & [(-> & C & _)|(c & pre & -> & -> & _)]); [right; now rewrite C|]. left. exact (used_faulty _ _ _ _ Hu).
Qed.
Lemma done_any cd r : content cd r = ([], true) ->
  let '(x, r') := er_read cd 1 r in
  faulty (er_src r) x \/ x = Ok [] /\ later (er_src r) (er_src r') /\ s_pos (er_src r') = er_end cd r.
Proof.
  intro CT. pose proof (er_read_spec cd 1 r ltac:(lia)) as P. pose proof (read_eof cd 1 r) as E.
  destruct (er_read cd 1 r) as [x r']. destruct P as (u & Hu & P). destruct x as [b|[]|]; try easy.
  - destruct P as (S & C & _). pose proof (steps_content _ _ _ _ S) as SC. rewrite CT in SC. destruct b; [|discriminate SC].
    right. split; [reflexivity|]. split; [exact (steps_later _ _ _ _ S)|]. now apply E.
  - destruct P as (_ & [(-> & C & _)|(c & pre & -> & -> & _)]); [congruence|]. left. exact (used_faulty _ _ _ _ Hu).
Qed.
(** what [leave] does with the reader of an entry, whatever the source does *)
Lemma leave_any cd choice s z c n desc :
  let w := take n (drop (s_pos s) (s_data s)) in
  let x := leave cd choice {| rd_reader := er_new s c n; rd_entry := z; rd_descriptor := desc |} in
  faulty s x \/ (snd (decoded cd c w) = false /\ x = Err (UpstreamReadError InvalidData)) \/
  exists out k b s', decoded cd c w = (out, true) /\ entry_span cd c w = Some k /\ later s s' /\ s_pos s' = s_pos s + k /\
    x = (let? s2 := after_entry desc s' in Ok (b, s2)) /\ match choice with None => b = out | Some _ => exists rest, out = b ++ rest end.
Proof.
  intros w x. unfold x, leave. cbn [rd_reader rd_entry rd_descriptor].
  assert (SP : snd (decoded cd c w) = true -> exists out k, decoded cd c w = (out, true) /\ entry_span cd c w = Some k).
  { intro D. destruct (proj1 (span_sound cd c w) D) as (k & K). exists (fst (decoded cd c w)), k. split; [|exact K]. rewrite <- D. now destruct (decoded cd c w). }
  destruct choice as [sizes|].
  - pose proof (er_reads_steps cd sizes (er_new s c n)) as S. destruct (er_reads cd sizes (er_new s c n)) as [xs r].
    pose proof (steps_later _ _ _ _ S) as LA. cbn [er_src er_new] in LA. pose proof (steps_content _ _ _ _ S) as SC. rewrite content_new in SC. fold w in SC.
    pose proof (skip_any cd _ r (fuel_enough cd r)) as K. unfold stream_skip. cbn [rd_reader rd_descriptor].
    destruct (skip_loop cd (er_fuel cd r) r) as [y r']. destruct K as [F|K].
    + left. apply (faulty_later _ _ _ LA) in F. destruct F as (e & I & ->). exists e. now split.
    + right. destruct (snd (content cd r)) eqn:CR.
      * right. destruct K as (-> & LB & P). pose proof (st_end _ _ _ _ S) as SE. rewrite content_new in SE. fold w in SE.
        assert (D : snd (decoded cd c w) = true) by now rewrite SC. destruct (SP D) as (out & k & D1 & K).
        exists out, k, (delivered xs), (er_src r'). split; [exact D1|]. split; [exact K|]. split; [exact (later_trans _ _ _ LA LB)|].
        split; [now rewrite P, (SE D), (end_new _ _ _ _ k K)|]. split; [reflexivity|]. rewrite D1 in SC. injection SC as ->. eexists. reflexivity.
      * left. rewrite K. split; [now rewrite SC|reflexivity].
  - pose proof (er_read_to_end_spec cd (er_new s c n)) as V. destruct (er_read_to_end cd (er_new s c n)) as [y r]. destruct V as (u & U & V).
    destruct y as [b|[]|]; try (exact (False_ind _ V)).
    + destruct V as (CT & S & _). rewrite content_new in CT. fold w in CT. pose proof (steps_later _ _ _ _ S) as LA. cbn [er_src er_new] in LA.
      pose proof (steps_content _ _ _ _ S) as SC. rewrite content_new in SC. fold w in SC. rewrite CT in SC.
      assert (CR : content cd r = ([], true)).
      { destruct (content cd r) as [l ok]. cbn [fst snd] in SC. injection SC as SC <-. apply nil_app_inv in SC. now subst l. }
      pose proof (done_any cd r CR) as K. cbn [rbind]. unfold stream_done. cbn [rd_reader rd_descriptor]. destruct (er_read cd 1 r) as [x' r'].
      destruct K as [F|(-> & LB & P)].
      * left. apply (faulty_later _ _ _ LA) in F. destruct F as (e & I & ->). exists e. now split.
      * right. right. pose proof (st_end _ _ _ _ S) as SE. rewrite content_new in SE. fold w in SE.
        destruct (SP ltac:(now rewrite CT)) as (out & k & D1 & K). exists out, k, b, (er_src r'). split; [exact D1|]. split; [exact K|]. split; [exact (later_trans _ _ _ LA LB)|].
        split; [now rewrite P, SE, (end_new _ _ _ _ k K) by now rewrite CT|]. split; [reflexivity|]. congruence.
    + destruct V as [(-> & D & _)|(e0 & pre & b & -> & -> & _)]; [right; left|left].
      * rewrite content_new in D. now split.
      * cbn [er_src er_new] in U. exists e0. split; [rewrite U; apply in_or_app; left; apply in_or_app; right; now left|reflexivity].
Qed.
Lemma later_calm s s' : later (calm s) s' -> s' = calm s'.
Proof. intros (_ & u & U). cbn [calm s_sched] in U. symmetry in U. apply app_eq_nil in U as [_ U]. destruct s' as [d p q]. cbn in U. now subst q. Qed.
Lemma not_faulty {A} s (r : res A) : ~ faulty (calm s) r.
Proof. intros (c & [] & _). Qed.
(** the descriptor *)
Lemma after_any desc s : faulty s (after_entry desc s) \/
  (forall e, after_entry desc s = Err e -> after_entry desc (calm s) = Err e) /\ (forall p, after_entry desc s = Panic p -> after_entry desc (calm s) = Panic p) /\
  (forall s2, after_entry desc s = Ok s2 -> later s s2 /\ after_entry desc (calm s) = Ok (calm s2)).
Proof.
  destruct desc; [|right; cbn [after_entry]; repeat split; try discriminate; intros; injection H as <-; [reflexivity|now exists []|reflexivity]].
  cbn [after_entry]. pose proof (insens_consume s) as I. unfold agrees in I. destruct (consume_data_descriptor s) as [r s'], (consume_data_descriptor (calm s)) as [r0 s0].
  destruct I as (_ & _ & D & used & U & [(_ & -> & <-)|(pre & c & -> & _ & ->)]).
  - right. destruct r0 as [[]|e|e]; repeat split; try discriminate; intros; try (injection H as <-); try reflexivity; [exact D|now exists used].
  - left. exists c. split; [rewrite U; apply in_or_app; left; apply in_or_app; right; now left|reflexivity].
Qed.
Lemma next_any cfg s : let '(r, s') := stream_next cfg s in
  faulty s r \/ later s s' /\ let '(r0, s0) := stream_next cfg (calm s) in s0 = calm s' /\
    match r with
    | Ok (Some rd) => exists rd0, r0 = Ok (Some rd0) /\ rd_entry rd0 = rd_entry rd /\ rd_descriptor rd0 = rd_descriptor rd /\
        exists c n, rd_reader rd = er_new s' c n /\ rd_reader rd0 = er_new (calm s') c n
    | _ => r0 = r
    end.
Proof.
  unfold stream_next. pose proof (insens_lfh_read cfg s) as I. unfold agrees in I.
  destruct (lfh_read cfg s) as [r s'], (lfh_read cfg (calm s)) as [r0 s0]. destruct I as (_ & _ & D & used & U & [(_ & -> & <-)|(pre & c & -> & _ & ->)]).
  - assert (LA : later s s') by (split; [exact D|now exists used]).
    destruct r0 as [[e|]|e|e]; right; (split; [exact LA|]); (split; [reflexivity|]); try reflexivity.
    eexists. split; [reflexivity|]. split; [reflexivity|]. split; [reflexivity|]. eexists. eexists. split; reflexivity.
  - left. exists c. split; [rewrite U; apply in_or_app; left; apply in_or_app; right; now left|reflexivity].
Qed.
Lemma bound_faulty {A B} s (x : res A) (k : A -> res B) : faulty s x -> faulty s (let? a := x in k a).
Proof. intros (c & I & ->). exists c. now split. Qed.
(** a failing source adds its error and nothing else *)
Lemma pick_faults cd cfg pl : forall n i s, faulty s (pick cd cfg pl n i s) \/
  match pick cd cfg pl n i s with Ok ys => exists zs, pick cd cfg pl n i (calm s) = Ok zs | r => pick cd cfg pl n i (calm s) = r end.
Proof.
  induction n as [|n IH]; intros i s; [right; reflexivity|]. cbn [pick]. pose proof (next_any cfg s) as NX.
  destruct (stream_next cfg s) as [r s1]. destruct NX as [F|(LA & NX)]; [left; cbn [fst]; now apply bound_faulty|].
  destruct (stream_next cfg (calm s)) as [r0 s0]. destruct NX as [-> NX]. cbn [fst].
  destruct r as [[rd|]|e|e]; [|right; subst r0; cbn [rbind]; eauto|right; subst r0; reflexivity|right; subst r0; reflexivity].
  destruct NX as (rd0 & -> & E1 & E2 & c & m & R & R0). cbn [rbind]. rewrite E1.
  destruct rd as [rr z desc], rd0 as [rr0 z0 desc0]. cbn [rd_reader rd_entry rd_descriptor] in *. subst rr rr0 z0 desc0.
  pose proof (leave_any cd (pl i z) s1 z c m desc) as L. pose proof (leave_any cd (pl i z) (calm s1) z c m desc) as L0. cbv zeta in L, L0. change (s_pos (calm s1)) with (s_pos s1) in L0. change (s_data (calm s1)) with (s_data s1) in L0.
  destruct L as [F|[(D & L)|(out & k & b & s' & D & K & LB & P & L & _)]].
  - left. apply (faulty_later _ _ _ LA). now apply bound_faulty.
  - right. rewrite L. cbn [rbind]. destruct L0 as [F|[(_ & L0)|(out & k & b & s' & D' & _)]]; [now apply not_faulty in F|now rewrite L0|].
    rewrite D' in D. discriminate D.
  - destruct L0 as [F|[(D' & _)|(out0 & k0 & b0 & s0 & D0 & K0 & LC & P0 & L0 & _)]]; [now apply not_faulty in F|rewrite D in D'; discriminate D'|].
    rewrite L, L0. rewrite K in K0. injection K0 as <-.
    assert (S0 : s0 = calm s').
    { rewrite (later_calm _ _ LC). destruct LC as [LC _], LB as [LB _]. unfold calm. cbn [s_data calm] in LC. rewrite LC, LB, P, P0. reflexivity. }
    rewrite S0. pose proof (later_trans _ _ _ LA LB) as LD. destruct (after_any desc s') as [F|(A1 & A2 & A3)].
    { left. apply (faulty_later _ _ _ LD). now do 2 apply bound_faulty. }
    destruct (after_entry desc s') as [s2|e|e]; [|right; cbn [rbind]; now rewrite (A1 e eq_refl)|right; cbn [rbind]; now rewrite (A2 e eq_refl)].
    destruct (A3 s2 eq_refl) as [LE ->]. cbn [rbind fst snd]. destruct (IH (Datatypes.S i) s2) as [F|F].
    + left. apply (faulty_later _ _ _ (later_trans _ _ _ LD LE)). now apply bound_faulty.
    + right. destruct (pick cd cfg pl n (Datatypes.S i) s2) as [l|e|e]; cbn [rbind]; [destruct F as (zs & ->); cbn [rbind]; eauto|now rewrite F|now rewrite F].
Qed.
(** what is got from a failing source stands in the bytes all the same *)
Lemma pick_sound cd cfg pl d : len d < 0x10000000000000000 -> forall n i s ys, s_data s = d -> pick cd cfg pl n i s = Ok ys ->
  exists xs, goes cd (past (s_pos s) d) xs /\ picked pl i xs ys.
Proof.
  intros LD. induction n as [|n IH]; intros i s ys <- H; [discriminate H|]. cbn [pick] in H.
  destruct (stream_next cfg s) as [[[rd|]|?|?] s1] eqn:NX; try discriminate H; cbn [fst rbind] in H.
  - pose proof (next_reads _ _ _ _ NX) as (D1 & t & R & T & Rd & RD & RR).
    pose proof (leave_any cd (pl i (rd_entry rd)) s1 (rd_entry rd) (en_compression (rd_entry rd))
      (if en_data_descriptor (rd_entry rd) then 0xFFFFFFFFFFFFFFFF else en_compressed_size (rd_entry rd)) (rd_descriptor rd)) as K.
    assert (RID : {| rd_reader := rd_reader rd; rd_entry := rd_entry rd; rd_descriptor := rd_descriptor rd |} = rd) by now destruct rd.
    rewrite <- RR, RID in K. rewrite (whole_data s1 _ _ ltac:(now rewrite D1) eq_refl) in K. cbv zeta in K.
    destruct (leave cd _ _) as [[b s2]|?|?] eqn:LV; try discriminate H. cbn [rbind fst snd] in H.
    destruct K as [(? & _ & K)|[(_ & K)|(out & k & b' & s' & D & E & LB & P & EQ & PK)]]; [discriminate K|discriminate K|].
    destruct (after_entry (rd_descriptor rd) s') as [s2'|?|?] eqn:AE; try discriminate EQ. cbn [rbind] in EQ. injection EQ as <- <-. rewrite D1 in *.
    destruct LB as [LB _]. destruct (after_any (rd_descriptor rd) s') as [(? & _ & F)|(_ & _ & A3)]; [rewrite AE in F; discriminate F|].
    destruct (A3 _ AE) as [[LC _] AC]. rewrite D1 in LB. rewrite LB in LC.
    assert (ST : stands (calm s') (s_data s) (s_pos s1 + k)) by (repeat split; [exact LB|exact P|constructor]).
    destruct (behind_after _ _ _ _ _ ST AC) as [B S2]. cbn [calm s_pos] in B.
    destruct (pick cd cfg pl n (Datatypes.S i) s2) as [l|?|?] eqn:PI; try discriminate H. cbn [rbind] in H. injection H as <-.
    destruct (IH _ _ _ LC PI) as (xs & G & Q). exists ((rd_entry rd, out) :: xs). split; [|cbn [picked]; now split].
    eapply goes_entry; try eassumption. rewrite RD in B. rewrite !past_drop in *. now rewrite drop_drop.
  - injection H as <-. exists []. split; [|exact I]. apply next_reads in NX as (_ & (a & b & E & L) & _). rewrite past_drop, E.
    replace (drop _ _) with (le 4 0x02014b50 ++ b) by (symmetry; now apply drop_app_exact). constructor.
Qed.
Lemma pick_ends cd cfg pl s n i p : len (s_data s) < 0x10000000000000000 -> len (s_data s) - s_pos s < 30 * N.of_nat n ->
  pick cd cfg pl n i s = Panic p -> p = POverflow /\ overflow_checks cfg = true.
Proof.
  intros L H E. destruct (pick_faults cd cfg pl n i s) as [(? & _ & F)|F]; [congruence|]. rewrite E in F.
  apply (pick_panics cd cfg pl (s_data s) L n i (calm s) (s_pos s) p); [repeat split; constructor|now rewrite len_past|exact F].
Qed.
