(** Archives however they were made, read however it is done. *)
From Verif Require Import Base BaseFacts Crc32 SpecFormat SpecCrc SpecArchive SpecRead SpecWrite SpecEncoder SpecBlame SpecMade SpecExact SpecThrough SpecStream ZString Headers ExtraField Entry IO IOFacts
  Reader EntryReader EntryProofs ReadProofs StreamReader Writer StreamPolls EncoderPolls AwaitedWrites WayProofs EncoderProofs BlameProofs MadeProofs
  ReaderPolls SpecReadPolls DecoderPolls SpecDecoder DecoderWalk SpecWalk SpecAwake SpecEndure EndureProofs ExactProofs.
From Verif Require Import ChainFacts.
Import Writer SpecReadPolls.

Lemma made_good cd xs body z d : enc_takes cd -> made cd xs body z d -> Forall (fun x => op_good (fst x)) xs.
Proof.
  intro T. destruct 1 as [sched l xs w w' G R C|E view sched l outs w w' OK R C G NI|E view k sched l outs w w' OK G R C]; [|exact G|].
  - pose proof (calls_chain cd l T G (zw_new sched)) as H. rewrite R in H. rewrite <- (Forall_map fst op_good), (proj2 H). exact G.
  - pose proof (settled_chain cd E view k T OK l (zw_new sched) G) as H. rewrite R in H. destruct H as [H _]. rewrite <- H, Forall_map in G. rewrite Forall_map. eapply Forall_impl; [|exact G].
    intros [o [r|]]; cbn [fst settled]; [exact (fun x => x)|]. destruct o; exact (fun x => x).
Qed.
Lemma made_goes cd xs body z d : codec_ok cd -> made cd xs body z d -> Forall (fun x => dropped (fst x) = false) xs -> Forall (fun x => worked (snd x) = true) xs ->
  len d < 0x10000000000000000 -> Forall (fun x => streamable cd (snd x)) (succeeded false xs) -> succeeded false xs <> [] ->
  exists es, goes cd d es /\ Forall2 (written_as cd) (succeeded false xs) es.
Proof.
  intros K M DR WK L ST NE. pose proof (made_good _ _ _ _ _ (proj1 K) M) as G. destruct (made_chain _ _ _ _ _ (proj1 K) M) as (sched & w & w' & CH & C & -> & -> & ->).
  exact (chain_goes cd sched xs w w' K CH C G DR WK L ST NE).
Qed.

Section MadeRead.
Context (cd : codec) (D : decoder) (view : dg_state D -> compression * bytes * bytes) (inv : dg_state D -> bytes -> Prop) (K : codec_ok cd) (OK : decoder_ok cd D view inv) (LV : decoder_lively D).
Lemma made_read cfg xs body z d : made cd xs body z d -> unambiguous cd cfg (map fst xs) xs z d ->
  exists f, mem_new cfg d = Ok {| m_data := d; m_file := f |} /\
    (forall s, s_data s = d -> fst (file cfg s) = Ok f \/ exists k, In (RFail k) (s_sched s) /\ fst (file cfg s) = Err (UpstreamReadError (IoOther k))) /\
    (forall i no64 o data s, nth_error (succeeded false xs) (N.to_nat i) = Some (no64, o) -> holds cd o data -> (forall it, leaves cd no64 o it -> straight it) -> s_data s = d ->
       (forall ns, Forall (fun n => 0 < n) ns -> (delays (s_sched s) + length data < length ns)%nat ->
          d_read_entry D ns f i s = Some (Ok data) \/ exists k, In (RFail k) (s_sched s) /\ d_read_entry D ns f i s = Some (Err (UpstreamReadError (IoOther k)))) /\
       (forall l r e s', seek_reader_at f i s = (Ok (r, e), s') -> Forall has_room l -> (troubles (s_sched s') + length data < length l)%nat ->
          let '(ps, r') := dr_polls l (dr_new D (er_src r) (er_comp r) (er_limit r)) in
          told ps = data /\ Exists at_end ps /\ hasher_finalize (dr_hash r') = crc32_spec data)).
Proof.
  intros M U. destruct (made_back cd cfg (cursor d) _ _ _ _ K M U eq_refl (Forall_nil _)) as (f & F & MN & _ & _ & _ & RD). exists f. split; [exact MN|]. split.
  - intros s SD. destruct (file_faults cfg s) as [E|E]; [left; rewrite E, SD; exact F|right; exact E].
  - intros i no64 o data s NT HO ST SD. pose proof (proj1 (RD i no64 o data NT HO ST)) as R. rewrite <- SD in R. split.
    + intros ns FN L. exact (entry_or cd D view inv OK LV ns f i s data FN R L).
    + intros l r e s' O H L. exact (entry_on cd D view inv OK LV l f i s r e s' data R O H L).
Qed.
Lemma made_walked cfg xs body z d : made cd xs body z d -> Forall (fun x => dropped (fst x) = false) xs -> Forall (fun x => worked (snd x) = true) xs ->
  len d < 0x10000000000000000 -> Forall (fun x => streamable cd (snd x)) (succeeded false xs) -> succeeded false xs <> [] ->
  exists es, Forall2 (written_as cd) (succeeded false xs) es /\
    forall l s, s_data s = d -> s_pos s = 0 -> (length es < length l)%nat -> Forall2 (fun x y => thorough (troubles (s_sched s)) (snd x) y) es (firstn (length es) l) ->
    exists ys r, d_walk D cfg l s = (ys, Some r) /\ Forall2 visited_as (firstn (length ys) es) ys /\ Forall no_complaint ys /\
      (r = Ok tt /\ length ys = length es /\ Forall2 (fun y z => sd_left z = Some (sy_done y)) (firstn (length es) l) ys \/
       exists k, In (RFail k) (s_sched s) /\ r = Err (UpstreamReadError (IoOther k))).
Proof.
  intros M DR WK L ST NE. destruct (made_goes _ _ _ _ _ K M DR WK L ST NE) as (es & G & W). exists es. split; [exact W|]. intros l s SD SP LL TH. rewrite <- SD in G, L.
  refine (walk_or cd D view inv OK LV cfg l s es L _ LL TH). now rewrite SP, past_drop, drop_0.
Qed.
End MadeRead.
