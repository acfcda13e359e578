(** From awaited sessions to readers that get done. *)
From Verif Require Import Base BaseFacts SpecFormat SpecCrc SpecArchive SpecRead SpecWrite SpecStream SpecStrict SpecExact SpecThrough SpecOrdinary SpecPolls SpecEncoder SpecDecoder SpecWalk SpecLively SpecAwake
  ZString Headers ExtraField Entry IO IOFacts Reader EntryReader StreamReader Writer WriterFacts HistFacts CloseFacts ChainFacts ExactProofs StreamPolls EncoderPolls ReaderPolls SpecReadPolls DecoderPolls DecoderWalk
  AwaitedWrites WayProofs AllWork LivelyProofs AwakeProofs.
Import Writer SpecReadPolls.

Lemma awaited_read cd (E : engine cd) view (D : decoder) dview inv cfg k sched l : codec_ok cd -> engine_ok cd E view -> engine_lively cd E view ->
  decoder_ok cd D dview inv -> decoder_lively D ->
  obliging sched -> Forall (patient k sched) l -> Forall handy l -> Forall ordinary_op l -> Forall proper l -> ordinary l -> filter writes_entry l <> [] ->
  entry_mem_size cfg <= 0x1000000000000 ->
  let '(outs, r, w) := awaited_archive cd E k sched l in
  let d := w_bytes w in
  outs = map (fun o => (o, Some (Ok tt))) l /\ r = Ok tt /\
  (len d < 0x5000000 -> exists f, (forall s, s_data s = d -> nofail (s_sched s) -> fst (file cfg s) = Ok f) /\
     Forall2 (fun o st => exists e, op_entry o = Some e /\ comes_back e st) (filter writes_entry l) (f_entries f) /\
     forall i o data ns s, nth_error (filter writes_entry l) (N.to_nat i) = Some o -> holds cd o data ->
       s_data s = d -> nofail (s_sched s) -> Forall (fun n => 0 < n) ns -> (delays (s_sched s) + length data < length ns)%nat ->
       d_read_entry D ns f i s = Some (Ok data)).
Proof.
  intros K OK LV DK DL OB PA H OO PR ORD NE MEM. pose proof (awaited_round_trip cd E view cfg k sched l K OK LV OB PA H OO PR ORD NE MEM) as A.
  destruct (awaited_archive cd E k sched l) as [[outs r] w]. cbv zeta in *. destruct A as (A1 & A2 & A). split; [exact A1|]. split; [exact A2|]. intro LD. specialize (A LD).
  destruct (A (cursor (w_bytes w)) eq_refl (Forall_nil _)) as (f & _ & M & _ & _ & CB & RD). exists f. split; [|split; [exact CB|]].
  - intros s SD NF. destruct (A s SD NF) as (f' & F & M' & _). rewrite M' in M. injection M as ->. exact F.
  - intros i o data ns s NT HO SD NF FN L. apply (entry_reads cd D dview inv DK DL ns f i s data FN NF); [|exact L]. rewrite SD. exact (proj1 (RD i o data NT HO)).
Qed.

Lemma awaited_walked cd (E : engine cd) view (D : decoder) dview inv cfg k sched l : codec_ok cd -> engine_ok cd E view -> engine_lively cd E view ->
  decoder_ok cd D dview inv -> decoder_lively D ->
  obliging sched -> Forall (patient k sched) l -> Forall handy l -> Forall (fun o => dropped o = false) l -> filter writes_entry l <> [] -> Forall (streamable cd) (filter writes_entry l) ->
  let '(outs, r, w) := awaited_archive cd E k sched l in
  let d := w_bytes w in
  outs = map (fun o => (o, Some (Ok tt))) l /\ r = Ok tt /\
  (len d < 0x10000000000000000 -> exists es, Forall2 (written_as cd) (map (fun o => (false, o)) (filter writes_entry l)) es /\
     forall stays s, s_data s = d -> s_pos s = 0 -> nofail (s_sched s) -> (length es < length stays)%nat ->
       Forall2 (fun x y => thorough (delays (s_sched s)) (snd x) y) es (firstn (length es) stays) ->
       exists ys, d_walk D cfg stays s = (ys, Some (Ok tt)) /\ Forall2 visited_as es ys /\ Forall2 (fun y z => sd_left z = Some (sy_done y)) (firstn (length es) stays) ys).
Proof.
  intros K OK LV DK DL OB PA H DR NE ST. unfold awaited_archive.
  destruct (all_awaited cd E view k (proj1 K) OK LV l H (zw_new sched) PA eq_refl OB) as (w & -> & CH).
  assert (R : fst (zw_close w) = Ok tt).
  { apply close_works.
    - exact (chain_short _ _ _ _ CH ltac:(constructor)).
    - rewrite (chain_force _ _ _ _ CH), map_map. cbn [fst]. rewrite map_id. now apply handy_not_no.
    - destruct (chain_evol _ _ _ _ CH) as (_ & _ & _ & (u & U)). change (w_sched (zw_new sched)) with sched in U. rewrite U in OB. now apply obliging_app in OB. }
  destruct (zw_close w) as [r w'] eqn:CL. cbn [fst] in R. subst r. cbv zeta. split; [reflexivity|]. split; [reflexivity|]. intro LD.
  assert (SU : succeeded false (map (fun o => (o, Ok tt)) l) = map (fun o => (false, o)) (filter writes_entry l)) by now apply succeeded_all.
  destruct (chain_goes cd sched _ _ _ K CH CL) as (es & G & W).
  - rewrite Forall_map. cbn [fst]. now apply handy_good.
  - rewrite Forall_map. exact DR.
  - rewrite Forall_map. apply Forall_forall. reflexivity.
  - exact LD.
  - rewrite SU, Forall_map. exact ST.
  - rewrite SU. now destruct (filter writes_entry l).
  - rewrite SU in W. exists es. split; [exact W|]. intros stays s SD SP NF LL TH. rewrite <- SD in LD, G.
    refine (walk_done cd D dview inv DK DL cfg stays s es LD _ NF LL TH). now rewrite SP, past_drop, drop_0.
Qed.
