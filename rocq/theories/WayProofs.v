(** From sessions of polls to walks by polls. *)
From Verif Require Import Base BaseFacts Crc32 CrcFacts SpecFormat SpecCrc SpecArchive ZString ZDate Headers HeadersFacts
  ExtraField Entry IO IOFacts Reader EntryReader EntryReaderFacts EntryProofs StreamReader Writer SpecRead SpecWrite SpecStream SpecStrict SpecExact SpecThrough RecordFacts WriteProofs
  HistFacts CloseFacts ChainFacts StreamPolls EncoderPolls SpecEncoder EncoderProofs StreamProofs StreamWalk ExactProofs ExactTop ThroughProofs
  ReaderPolls SpecReadPolls DecoderPolls SpecDecoder DecoderWalk SpecWalk FaultWalkProofs DecoderWalkProofs.
Import Writer SpecReadPolls.
Arguments N.add : simpl never.
Arguments N.sub : simpl never.

Lemma chain_laid cd w xs w' : ChainFacts.chain cd w xs w' -> Forall (fun x => op_good (fst x)) xs -> Forall (fun x => dropped (fst x) = false) xs ->
  w_offset w = len (w_bytes w) -> Forall (fun x => worked (snd x) = true) xs -> len (w_bytes w') < 0x10000000000000000 ->
  exists ps, w_bytes w' = w_bytes w ++ concat (map snd ps) /\ Forall2 (links cd) (succeeded (w_force_no w) xs) ps.
Proof.
  induction 1 as [w|w o r w1 xs w2 L C IH]; intros GS DR OF WK LB.
  { exists []. split; [now rewrite app_nil_r|constructor]. }
  apply Forall_cons_iff in GS as [G GS], DR as [D DR], WK as [W1 WK]. cbn [fst snd] in G, D, W1.
  destruct L as [S EV KF _ _ _ SAME]. pose proof (evol_offset _ _ EV OF) as OF1. destruct (IH GS DR OF1 WK LB) as (ps & E & F).
  pose proof (chain_evol _ _ _ _ C) as ((b & EB & _) & _). rewrite EB, len_app in LB. specialize (S OF ltac:(lia)).
  rewrite KF in F. destruct S as [CC NW TM|c it img WE CC B OFF LV EL FN I64 CNT].
  - exists ps. assert (W : writes_entry o = false) by (destruct (writes_entry o); [rewrite NW in W1 by easy; discriminate|reflexivity]).
    rewrite succeeded_cons, W. cbn [andb app]. rewrite <- (proj1 (SAME W D)). auto.
  - exists ((it, img) :: ps). rewrite succeeded_cons, WE, W1. cbn [andb app map concat snd]. split.
    + rewrite E, B, <- app_assoc. reflexivity.
    + constructor; [|exact F]. split; [exact LV|]. split; [|now exists c].
      destruct EL as (a & v & f & lx & LO & IM & _). rewrite B, len_app, IM in LB. unfold item_image in LB. rewrite !len_app in LB.
      apply (leaves_fine _ _ _ _ LV G); [unfold i_csize; lia|cbn [fst]; rewrite OFF, OF; lia].
Qed.

Lemma chain_walk cd cfg sched xs w0 w s : codec_ok cd -> ChainFacts.chain cd (zw_new sched) xs w0 -> zw_close w0 = (Ok tt, w) ->
  Forall (fun x => op_good (fst x)) xs -> Forall (fun x => dropped (fst x) = false) xs ->
  Forall (fun x => worked (snd x) = true) xs -> len (w_bytes w) < 0x10000000000000000 ->
  Forall (fun x => streamable cd (snd x)) (succeeded false xs) -> succeeded false xs <> [] ->
  stands s (w_bytes w) 0 -> walks cd cfg (succeeded false xs) s.
Proof.
  intros K H C G DR WK LB ST NE SD. destruct (chain_shape cd sched _ _ _ H C LB) as (its & ms & SH).
  pose proof (sh_bytes _ _ _ _ _ _ _ _ SH) as EB. pose proof (sh_items _ _ _ _ _ _ _ _ SH) as F1. pose proof (sh_members _ _ _ _ _ _ _ _ SH) as F2.
  assert (L0 : len (w_bytes w0) < 0x10000000000000000) by (rewrite EB, len_app in LB; lia).
  destruct (chain_laid cd _ _ _ H G DR eq_refl WK L0) as (ps & EP & F3). cbn [zw_new w_force_no] in F3.
  change (w_bytes (zw_new sched)) with (@nil byte) in EP. rewrite app_nil_l in EP.
  rewrite (recorded_succeeded _ (worked_not_many _ WK)) in F1.
  destruct ms as [|a ms].
  { exfalso. inversion F2; subst. inversion F1 as [Q|]. now elim NE. }
  destruct (record_starts a) as (y & EY). eapply (walk cd cfg (w_bytes w) _ K LB _ ps F3 ST s 0 SD).
  rewrite drop_0, EB, EP. unfold members. cbn [map concat]. rewrite EY, <- !app_assoc. reflexivity.
Qed.

Lemma walks_goes cd cfg d : len d < 0x10000000000000000 -> forall l s p, stands s d p -> walks cd cfg l s ->
  exists es, goes cd (past p d) es /\ Forall2 (written_as cd) l es.
Proof.
  intro LD. induction l as [|x l IH]; intros s p (<- & <- & N) H; cbn [walks] in H.
  - exists []. split; [|constructor]. destruct (stream_next cfg s) as [o s1] eqn:NX. cbn [fst] in H. subst o.
    apply next_reads in NX as (_ & (a & b & E & L) & _). rewrite past_drop, E.
    replace (drop _ _) with (le 4 0x02014b50 ++ b) by (symmetry; now apply drop_app_exact). constructor.
  - destruct H as (rd & s1 & NX & SH & out & HO & H). specialize (H []). cbn [er_reads] in H. cbn [delivered concat map] in H.
    destruct H as ((rest & OE & RE & _) & (s2 & SK & W2) & _). cbn in OE. subst rest.
    pose proof (next_nofail _ _ _ _ N NX) as N1. pose proof (next_reads _ _ _ _ NX) as (D1 & t & R & T & Rd & RD & RR).
    pose proof (leave_cases cd (Some []) s1 (rd_entry rd) (en_compression (rd_entry rd))
      (if en_data_descriptor (rd_entry rd) then 0xFFFFFFFFFFFFFFFF else en_compressed_size (rd_entry rd)) (rd_descriptor rd) N1) as K.
    rewrite <- RR in K. rewrite (whole_data s1 _ _ ltac:(now rewrite D1) eq_refl) in K. cbv zeta in K. destruct K as [_ K].
    cbn [leave er_reads rd_reader rd_entry rd_descriptor] in K. rewrite SK in K. cbn [rbind] in K.
    rewrite RR, er_read_to_end_nofail, content_new in RE by exact N1. rewrite (whole_data s1 _ _ ltac:(now rewrite D1) eq_refl) in RE.
    destruct (decoded cd (en_compression (rd_entry rd)) (data_of (rd_entry rd) (past (s_pos s1) (s_data s1)))) as [out' ok] eqn:D. cbn [fst snd] in RE.
    destruct ok; [|discriminate RE]. injection RE as ->.
    destruct (proj1 (span_sound cd (en_compression (rd_entry rd)) (data_of (rd_entry rd) (past (s_pos s1) (s_data s1)))) ltac:(now rewrite D)) as (k & E).
    destruct (K out k eq_refl E) as (b' & s' & S' & EQ & _). destruct (after_entry (rd_descriptor rd) s') as [s2'|?|?] eqn:AE; try discriminate EQ.
    cbn [rbind] in EQ. injection EQ as _ <-. rewrite D1 in *. destruct (behind_after _ _ _ _ _ S' AE) as [B S2].
    destruct (IH _ _ S2 W2) as (es & G & Q). exists ((rd_entry rd, out) :: es). split; [|constructor; [now split|exact Q]].
    eapply goes_entry; try eassumption. rewrite RD in B. rewrite !past_drop in *. now rewrite drop_drop.
Qed.

Lemma chain_goes cd sched xs w0 w : codec_ok cd -> ChainFacts.chain cd (zw_new sched) xs w0 -> zw_close w0 = (Ok tt, w) ->
  Forall (fun x => op_good (fst x)) xs -> Forall (fun x => dropped (fst x) = false) xs ->
  Forall (fun x => worked (snd x) = true) xs -> len (w_bytes w) < 0x10000000000000000 ->
  Forall (fun x => streamable cd (snd x)) (succeeded false xs) -> succeeded false xs <> [] ->
  exists es, goes cd (w_bytes w) es /\ Forall2 (written_as cd) (succeeded false xs) es.
Proof.
  intros K H C G DR WK LB ST NE. set (cfg := {| overflow_checks := true; entry_mem_size := 1 |}).
  assert (S : stands (src (w_bytes w) 0) (w_bytes w) 0) by (repeat split; constructor).
  destruct (walks_goes cd cfg _ LB _ _ _ S (chain_walk cd cfg sched xs w0 w _ K H C G DR WK LB ST NE S)) as (es & X). rewrite past_drop, drop_0 in X. now exists es.
Qed.
Lemma visited_goes cd (E : engine cd) view sched l : codec_ok cd -> engine_ok cd E view ->
  let '(outs, r, w) := visited_archive cd E sched l in
  let xs := map counts_as outs in
  let d := w_bytes w in
  Forall (fun x => op_good (fst x)) xs -> Forall not_ignored outs -> Forall (fun x => dropped (fst x) = false) xs ->
  r = Ok tt -> Forall (fun x => worked (snd x) = true) xs -> len d < 0x10000000000000000 ->
  Forall (fun x => streamable cd (snd x)) (succeeded false xs) -> succeeded false xs <> [] ->
  exists es, goes cd d es /\ Forall2 (written_as cd) (succeeded false xs) es.
Proof.
  intros K OK. unfold visited_archive. pose proof (visits_chain cd E view (proj1 K) OK l (zw_new sched)) as H.
  destruct (run_visits cd E l (zw_new sched)) as [outs w0]. destruct (zw_close w0) as [r w] eqn:C. cbv zeta. intros G NI DR -> WK LB ST NE.
  rewrite Forall_map in G. specialize (H G NI). rewrite <- Forall_map with (P := fun x => op_good (fst x)) in G.
  exact (chain_goes cd sched _ _ _ K H C G DR WK LB ST NE).
Qed.
Lemma visited_walked cd (E : engine cd) view (D : decoder) dview inv cfg sched l : codec_ok cd -> engine_ok cd E view -> decoder_ok cd D dview inv ->
  let '(outs, r, w) := visited_archive cd E sched l in
  let xs := map counts_as outs in
  let d := w_bytes w in
  Forall (fun x => op_good (fst x)) xs -> Forall not_ignored outs -> Forall (fun x => dropped (fst x) = false) xs ->
  r = Ok tt -> Forall (fun x => worked (snd x) = true) xs -> len d < 0x10000000000000000 ->
  Forall (fun x => streamable cd (snd x)) (succeeded false xs) -> succeeded false xs <> [] ->
  exists es, Forall2 (written_as cd) (succeeded false xs) es /\
  forall stays s, s_data s = d -> s_pos s = 0 ->
  let '(ys, o) := d_walk D cfg stays s in
  Forall2 visited_as (firstn (length ys) es) ys /\ Forall no_complaint ys /\
  match o with
  | None => True
  | Some (Ok _) => length ys = length es
  | Some r => (exists c, In (RFail c) (s_sched s) /\ r = Err (UpstreamReadError (IoOther c))) \/
      r = Err EOFNotReached /\ exists ys0 y x, ys = ys0 ++ [y] /\ nth_error es (length ys0) = Some x /\ told (sd_polls y) <> snd x
  end.
Proof.
  intros K OK DK. pose proof (visited_goes cd E view sched l K OK) as H. destruct (visited_archive cd E sched l) as [[outs r] w]. cbv zeta in *.
  intros G NI DR R WK LB ST NE. destruct (H G NI DR R WK LB ST NE) as (es & GO & F). exists es. split; [exact F|]. intros stays s SD SP.
  refine (walk_takes cd D dview inv DK cfg (w_bytes w) LB _ es GO stays s SD _). now rewrite SP, past_drop, drop_0.
Qed.
