(** Streams polled through an encoder. *)
From Verif Require Import Base BaseFacts Crc32 CrcFacts SpecFormat SpecCrc SpecArchive ZString ZDate Headers HeadersFacts
  ExtraField ExtraFieldFacts Entry IO IOFacts Reader EntryReader Writer WriterFacts WholeFacts StreamFacts SpecRead SpecWrite OpenFacts RecordFacts WriteProofs
  HistFacts CloseFacts ChainFacts StreamPolls SpecPolls PollProofs EncoderPolls SpecEncoder
  SpecSize SpecStrict SpecAccept SpecLax SpecRepack SpecInterop InteropProofs.
Arguments N.add : simpl never.
Arguments N.sub : simpl never.

Lemma passed_moved w w' b : passed_on w w' b -> exists u f, moved w w' b u f.
Proof.
  intros ((u & U) & B & C & F & O & D & N & Z & M). exists u, (k_flushes (w_sink w') - k_flushes (w_sink w)). split; [exact U|].
  destruct w' as [[kw kf kc ks] o c f z cm]. unfold w_sched. cbn in *. subst. f_equal. f_equal. lia.
Qed.

(** ** The polls *)
(** what an encoder has been through since [w0], if no poll failed *)
Definition through (cd : codec) (st0 : est cd) (w0 : world) (told : bytes) (v : est cd * bytes * bool) (w : world) : Prop :=
  let '(st, kept, finished) := v in
  exists out sent u f, enc_runs cd st0 told out st /\ out ++ (if finished then enc_finish cd st else []) = sent ++ kept /\ moved w0 w sent u f.

Section Engine.
Context {cd : codec} (E : engine cd) (view : eg_state E -> est cd * bytes * bool) (OK : engine_ok cd E view).

Lemma engine_moves c g w : let '(p, g', w') := eg_poll E c g w in exists b u f, moved w w' b u f.
Proof.
  pose proof (proj2 OK c g w) as H. destruct (eg_poll E c g w) as [[p g'] w']. destruct (view g) as [[st kept] fin], (view g') as [[st' kept'] fin'].
  destruct H as (fd & out & last & sent & _ & _ & P & _). destruct (passed_moved _ _ _ P) as (u & f & M). eauto.
Qed.
Lemma engine_through st0 w0 told c g w : through cd st0 w0 told (view g) w ->
  let '(p, g', w') := eg_poll E c g w in
  match p with
  | WErr _ => True
  | WPend => through cd st0 w0 told (view g') w'
  | WDone n => match c with
               | EWrite b => n <= len b /\ through cd st0 w0 (told ++ take n b) (view g') w'
               | EFlush => through cd st0 w0 told (view g') w'
               | EClose => through cd st0 w0 told (view g') w' /\ exists st, view g' = (st, [], true)
               end
  end.
Proof.
  intro T. pose proof (proj2 OK c g w) as H. destruct (eg_poll E c g w) as [[p g'] w'].
  destruct (view g) as [[st kept] fin], (view g') as [[st' kept'] fin'].
  destruct H as (fd & o & last & sent & RU & EQ & P & FI & DN & A). destruct T as (out & sent0 & u0 & f0 & RU0 & EQ0 & M0).
  destruct (passed_moved _ _ _ P) as (u & f & M).
  assert (G : through cd st0 w0 (told ++ fd) (st', kept', fin') w').
  { exists (out ++ o), (sent0 ++ sent), (u0 ++ u), (f0 + f). split; [exact (runs_app _ _ _ _ _ RU0 _ _ _ RU)|].
    split; [|exact (moved_trans _ _ _ _ _ _ _ _ _ M0 M)].
    rewrite <- (app_assoc sent0), <- EQ, (app_assoc sent0), <- EQ0, <- !app_assoc. f_equal.
    destruct FI as [(-> & ->)|(-> & -> & ->)].
    - destruct fin; [|now rewrite app_nil_r]. destruct (DN eq_refl) as (_ & -> & ->). cbn [app]. now rewrite app_nil_r.
    - reflexivity. }
  destruct p as [|n|e]; [|destruct c as [b| |]|exact I].
  - subst fd. now rewrite app_nil_r in G.
  - destruct A as [A ->]. split; [exact A|exact G].
  - subst fd. now rewrite app_nil_r in G.
  - destruct A as (-> & -> & ->). rewrite app_nil_r in G. split; [exact G|]. now exists st'.
Qed.

Lemma coded_moves l : forall (sw : stream_writer cd) g w, let '(xs, sw', g', w') := coded_polls E l sw g w in exists b u f, moved w w' b u f.
Proof.
  induction l as [|c l IH]; intros sw g w; cbn [coded_polls]; [exists [], [], 0; apply moved_refl|].
  assert (H : let '(p, sw1, g1, w1) := coded_poll E c sw g w in exists b u f, moved w w1 b u f).
  { destruct c as [b|bs| |]; cbn [coded_poll]; unfold coded_poll_write;
      match goal with |- context [eg_poll E ?c g w] => pose proof (engine_moves c g w) as H; destruct (eg_poll E c g w) as [[[|n|e] g'] w'] end; exact H. }
  destruct (coded_poll E c sw g w) as [[[p sw1] g1] w1]. destruct H as (b1 & u1 & f1 & M1). specialize (IH sw1 g1 w1).
  destruct (coded_polls E l sw1 g1 w1) as [[[xs sw2] g2] w2]. destruct IH as (b2 & u2 & f2 & M2). exists (b1 ++ b2), (u1 ++ u2), (f1 + f2).
  exact (moved_trans _ _ _ _ _ _ _ _ _ M1 M2).
Qed.
Lemma coded_through st0 w0 l : forall (sw : stream_writer cd) g w told, through cd st0 w0 told (view g) w ->
  let '(xs, sw', g', w') := coded_polls E l sw g w in
  Forall (fun y => ~ poll_failed y) xs ->
  through cd st0 w0 (told ++ taken xs) (view g') w' /\ sw' = fed sw (taken xs) (sw_enc sw).
Proof.
  induction l as [|c l IH]; intros sw g w told T; cbn [coded_polls].
  - intros _. unfold taken. cbn [map concat]. rewrite app_nil_r. split; [exact T|]. symmetry. apply fed_nil.
  - assert (H : let '(p, sw1, g1, w1) := coded_poll E c sw g w in ~ poll_failed (c, p) ->
      through cd st0 w0 (told ++ reported (c, p)) (view g1) w1 /\ sw1 = fed sw (reported (c, p)) (sw_enc sw)).
    { destruct c as [b|bs| |]; cbn [coded_poll]; unfold coded_poll_write;
        match goal with |- context [eg_poll E ?c g w] => pose proof (engine_through st0 w0 told c g w T) as H; destruct (eg_poll E c g w) as [[[|n|e] g'] w'] end;
        cbn [reported]; intro PF; try (exfalso; apply PF; exact I); rewrite ?app_nil_r.
      all: try (split; [first [exact H | exact (proj1 H)]|symmetry; apply fed_nil]).
      - destruct H as [L H]. split; [exact H|]. unfold fed. rewrite len_take. now replace (N.min n (len b)) with n by lia.
      - destruct H as [L H]. rewrite first_buffer_take by exact L. split; [exact H|]. unfold fed. rewrite len_take.
        now replace (N.min n (len (first_buffer bs))) with n by lia. }
    destruct (coded_poll E c sw g w) as [[[p sw1] g1] w1]. pose proof (IH sw1 g1 w1) as IH1. destruct (coded_polls E l sw1 g1 w1) as [[[xs sw2] g2] w2].
    intro F. apply Forall_cons_iff in F. destruct F as [F1 F2]. destruct (H F1) as [T1 ->]. destruct (IH1 _ T1 F2) as [T2 ->].
    change (taken ((c, p) :: xs)) with (reported (c, p) ++ taken xs). rewrite app_assoc. split; [exact T2|]. rewrite sw_enc_fed. apply fed_fed.
Qed.
Lemma await_moves k : forall g w, let '(r, w') := await_close E k g w in exists b u f, moved w w' b u f.
Proof.
  induction k as [|k IH]; intros g w; cbn [await_close]; [exists [], [], 0; apply moved_refl|].
  pose proof (engine_moves EClose g w) as H. destruct (eg_poll E EClose g w) as [[[|n|e] g'] w']; [|exact H|exact H].
  specialize (IH g' w'). destruct (await_close E k g' w') as [r w2]. destruct H as (b1 & u1 & f1 & M1), IH as (b2 & u2 & f2 & M2).
  exists (b1 ++ b2), (u1 ++ u2), (f1 + f2). exact (moved_trans _ _ _ _ _ _ _ _ _ M1 M2).
Qed.
Lemma await_ends k : forall g w, let '(r, w') := await_close E k g w in match r with Some (Panic _) => False | Some (Err x) => exists io, x = UpstreamReadError io | _ => True end.
Proof.
  induction k as [|k IH]; intros g w; cbn [await_close]; [exact I|]. destruct (eg_poll E EClose g w) as [[[|n|e] g'] w']; [apply IH|exact I|now exists e].
Qed.
Lemma await_through st0 w0 told k : forall g w, through cd st0 w0 told (view g) w ->
  let '(r, w') := await_close E k g w in
  r = Some (Ok tt) -> exists out st u f, enc_runs cd st0 told out st /\ moved w0 w' (out ++ enc_finish cd st) u f.
Proof.
  induction k as [|k IH]; intros g w T; cbn [await_close]; [discriminate|].
  pose proof (engine_through st0 w0 told EClose g w T) as H. destruct (eg_poll E EClose g w) as [[[|n|e] g'] w'].
  - now apply IH.
  - intros _. destruct H as [H (st & V)]. rewrite V in H. destruct H as (out & sent & u & f & RU & EQ & M). exists out, st, u, f.
    split; [exact RU|]. rewrite EQ. now rewrite app_nil_r.
  - discriminate.
Qed.
End Engine.

(** ** Closing *)
Definition packed (cd : codec) (pre : bool) (e : zentry) (content z : bytes) : Prop :=
  if pre then z = content else compressed cd (en_compression e) content z.

Lemma closing_step {cd} pre e w sw w1 content z u f w2 :
  entry_fine e -> len content < 0x10000000000000000 -> w_offset w = len (w_bytes w) ->
  stream_open cd pre e w = (Ok sw, w1) -> moved w1 w2 z u f -> packed cd pre e content z ->
  let '(r, w') := stream_close (fed sw content None) w2 in
  len (w_bytes w') < 0x10000000000000000 -> HistFacts.step cd (OpStream pre e [SWriteAll content] true) w r w'.
Proof.
  intros EF HC OF OP M2 PK. pose proof (stream_open_spec cd pre e w) as O. cbv zeta in O. rewrite OP in O.
  set (fn := w_force_no w) in *.
  assert (WC : w_cds (so_world w) = w_cds w) by (unfold so_world; now destruct (w_force_no w)).
  assert (WB : w_bytes (so_world w) = w_bytes w) by (unfold so_world; now destruct (w_force_no w)).
  assert (WZ : fn = false -> w_zip64 (so_world w) = true) by (unfold so_world, fn; now intros ->).
  destruct (fn && so_big e) eqn:SB; [now destruct O|].
  destruct (so_refused fn e) as [x|] eqn:R; [now destruct O|].
  destruct O as (us & M1 & _ & enc & NE & ->). destruct (so_count _ _ R) as [C1 _].
  set (head := head_bytes (so_lfh fn e) (so_e3 fn e)) in *. set (off := w_offset w) in *. set (doff := off + len head) in *.
  pose proof (moved_cds _ _ _ _ _ M1) as MC1. pose proof (moved_bytes _ _ _ _ _ M1) as MB1. pose proof (moved_zip64 _ _ _ _ _ M1) as MZ1.
  pose proof (moved_offset _ _ _ _ _ M1) as MO1. replace (w_offset (so_world w)) with off in MO1 by (unfold so_world; now destruct (w_force_no w)).
  rewrite WC in MC1. rewrite WB in MB1.
  pose proof (moved_cds _ _ _ _ _ M2) as MC2. pose proof (moved_bytes _ _ _ _ _ M2) as MB2. pose proof (moved_zip64 _ _ _ _ _ M2) as MZ2.
  pose proof (moved_offset _ _ _ _ _ M2) as MO2. rewrite MC1 in MC2. rewrite MB1 in MB2. rewrite MO1 in MO2.
  set (sw := fed (opened pre fn e off doff enc) content None).
  rewrite stream_close_eq; [|exact C1|reflexivity].
  change (sw_enc sw) with (@None (est cd)). cbn [fin_writes puts]. unfold bind at 1, ret at 1.
  assert (CS : w_offset w2 - doff = len z) by (unfold doff; rewrite MO2; lia).
  unfold close_rest. cbv zeta. change (sw_data_offset sw) with doff. change (sw_force_no sw) with fn. rewrite CS.
  destruct (fn && sc_big sw (len z)) eqn:BG; [intros _; now apply step_none|].
  destruct (N.ltb_spec (fields_count_bytes (en_extra (sc_e2 sw (len z)))) 65536) as [L2|L2]; cbn [negb].
  2:{ intros _. apply step_none; [exact MC2|reflexivity|reflexivity]. }
  unfold bind. pose proof (puts_ok (sc_descriptor sw (len z)) w2) as P. unfold put_ok in P.
  destruct (puts (sc_descriptor sw (len z)) w2) as [[y|y|p] w4]; cbn [fst snd] in P; destruct P as (u4 & P); [| |easy].
  2:{ destruct P as (io & p & -> & _ & M & _). intros _. apply step_none; [|reflexivity|reflexivity]. rewrite (moved_cds _ _ _ _ _ M). exact MC2. }
  destruct P as [M4 _].
  pose proof (moved_cds _ _ _ _ _ M4) as MC4. pose proof (moved_bytes _ _ _ _ _ M4) as MB4. pose proof (moved_zip64 _ _ _ _ _ M4) as MZ4.
  rewrite MC2 in MC4. rewrite MB2 in MB4.
  destruct (N.ltb_spec (len (basic_bytes (en_comment (sw_entry sw)))) 65536) as [LC|LC].
  2:{ intros _. apply step_none; [exact MC4|reflexivity|reflexivity]. }
  pose proof (push_step fn (sc_cd sw (len z)) w4) as PS. pose proof (push_zip64 fn (sc_cd sw (len z)) w4) as PZ.
  destruct (push_and_check fn (sc_cd sw (len z)) w4) as [r w5]. destruct PS as (C5 & B5 & Z5 & PS).
  intro LB. rewrite B5, MB4, !len_app in LB.
  destruct (stream_laid pre fn e off doff enc content None z EF HC ltac:(lia) ltac:(lia) SB R BG L2 LC) as (a & v & g & lx & LO & HB & DB & CB & MO).
  set (it := stream_item fn e (sw_usize pre e content) (sw_crc pre e content) z off) in *.
  apply (step_some cd _ w r w5 (sc_cd sw (len z)) it (item_image it v g lx)).
  - reflexivity.
  - now rewrite C5, MC4.
  - rewrite B5, MB4. change sw with (fed (opened pre fn e off doff enc) content None). rewrite DB. fold head in HB. rewrite HB.
    unfold item_image. change (i_data it) with z. now rewrite <- !app_assoc.
  - reflexivity.
  - assert (FB : fed_bytes [SWriteAll content] = content) by apply app_nil_r.
    unfold it, stream_item. unfold sw_usize, sw_crc. unfold packed in PK. destruct pre.
    + subst z. rewrite <- FB at 2. apply leaves_stream_pre.
    + pose proof (leaves_stream cd (w_force_no w) e [SWriteAll content] z off) as LS. rewrite FB in LS. exact (LS PK).
  - exists a, v, g, lx. auto.
  - fold fn. intro FN. rewrite FN in BG. cbn [andb] in BG. unfold sc_big in BG.
    apply orb_false_iff in BG as [BG B3]. apply orb_false_iff in BG as [BG1 BG2].
    assert (E1 : en_uncompressed_size (sc_e1 sw) = i_usize it).
    { unfold sc_e1, sw, fed, sw_advance, opened, it, sw_usize. cbn [sw_pre sw_entry sw_uoffset i_usize stream_item]. destruct pre; [|reflexivity].
      unfold so_e3, so_e2, add_unicode_fields. destruct fn, (utf8_flag _); reflexivity. }
    rewrite E1 in BG1. split; [|exact B3]. unfold i_big. apply orb_false_iff. split; [exact BG1|exact BG2].
  - intro I. apply Z5. rewrite MZ4, MZ2, MZ1. apply WZ. unfold in64, off64 in I. cbn in I. now destruct fn.
  - fold fn. exact PS.
  - intro H. destruct (PZ H) as [H1|H1]; [|auto]. rewrite MZ4, MZ2, MZ1 in H1. unfold so_world in H1. change (in64 it) with (negb fn). unfold fn.
    destruct (w_force_no w); cbn; auto.
Qed.

(** what opening, sending and closing leave alone *)
Record mild (w w' : world) : Prop := { ml_evol : evol w w'; ml_keeps : keeps w w'; ml_short : cds_short w -> cds_short w' }.
Lemma mild_trans a b c : mild a b -> mild b c -> mild a c.
Proof. intros [A1 A2 A3] [B1 B2 B3]. split; [exact (evol_trans _ _ _ A1 B1)|exact (keeps_trans _ _ _ A2 B2)|auto]. Qed.
Lemma mild_moved w w' b u f : moved w w' b u f -> mild w w'.
Proof.
  intro M. split; [exact (moved_evol _ _ _ _ _ M)|exact (moved_keeps _ _ _ _ _ M)|]. apply cds_short_same. exact (moved_cds _ _ _ _ _ M).
Qed.
Lemma mild_open cd pre e w : mild w (snd (stream_open cd pre e w)) /\ w_cds (snd (stream_open cd pre e w)) = w_cds w.
Proof.
  assert (C : w_cds (snd (stream_open cd pre e w)) = w_cds w).
  { pose proof (stream_open_spec cd pre e w) as O. cbv zeta in O. destruct (stream_open cd pre e w) as [r w']. cbn [snd].
    assert (W : w_cds (so_world w) = w_cds w) by (unfold so_world; now destruct (w_force_no w)).
    destruct (w_force_no w && so_big e); [now destruct O as [_ ->]|]. destruct (so_refused _ e); [destruct O as [_ ->]; exact W|].
    destruct O as (u & O). rewrite <- W. destruct r as [sw|x|p].
    - destruct O as (M & _). exact (moved_cds _ _ _ _ _ M).
    - destruct O as (io & p & _ & _ & M & _). exact (moved_cds _ _ _ _ _ M).
    - destruct O as (_ & _ & _ & M). exact (moved_cds _ _ _ _ _ M). }
  split; [|exact C]. split; [apply grows_stream_open|apply steadfast_stream_open|]. now apply cds_short_same.
Qed.
Lemma mild_close cd pre e w (sw : stream_writer cd) w1 content w2 : stream_open cd pre e w = (Ok sw, w1) -> mild w2 (snd (stream_close (fed sw content None) w2)).
Proof.
  intro OP. split; [apply grows_stream_close|apply steadfast_stream_close|]. intro S.
  pose proof (stream_open_spec cd pre e w) as O. cbv zeta in O. rewrite OP in O.
  destruct (w_force_no w && so_big e); [now destruct O|]. destruct (so_refused _ e) eqn:R; [now destruct O|].
  destruct O as (us & _ & _ & enc & _ & ->). destruct (so_count _ _ R) as [C1 _].
  rewrite stream_close_eq; [|exact C1|reflexivity]. rewrite sw_enc_fed. cbn [fin_writes puts]. unfold bind at 1, ret at 1. now apply cds_short_close_rest.
Qed.
Lemma linked_of cd w pre e body closed r w' : mild w w' ->
  (w_offset w = len (w_bytes w) -> len (w_bytes w') < 0x10000000000000000 -> HistFacts.step cd (OpStream pre e body closed) w r w') ->
  linked cd w (OpStream pre e body closed) r w'.
Proof. intros [M1 (K1 & K2 & K3) M3] S. constructor; try assumption. destruct closed; discriminate. Qed.

(** ** One visit *)
Lemma open_failed cd pre e w r w1 : stream_open cd pre e w = (r, w1) ->
  match r with Ok _ => True | Err x => too_many (Err x) = false | Panic _ => True end.
Proof.
  intro OP. pose proof (stream_open_spec cd pre e w) as O. cbv zeta in O. rewrite OP in O. destruct r as [sw|x|p]; [exact I| |exact I].
  destruct (w_force_no w && so_big e); [destruct O as [O _]; injection O as ->; reflexivity|].
  destruct (so_refused _ e) as [y|] eqn:R.
  - destruct O as [O _]. injection O as ->. unfold so_refused in R. cbv zeta in R.
    repeat match type of R with (if ?b then _ else _) = _ => destruct b end; try discriminate; injection R as <-; reflexivity.
  - destruct O as (u & io & p & -> & _). reflexivity.
Qed.
Lemma opened_enc cd pre e w sw w1 st : stream_open cd pre e w = (Ok sw, w1) -> sw_enc sw = Some st ->
  pre = false /\ en_compression e <> Stored /\ en_compression e <> Deflate64 /\ st = enc_init cd (en_compression e) LDefault.
Proof.
  intros OP EN. pose proof (stream_open_spec cd pre e w) as O. cbv zeta in O. rewrite OP in O.
  destruct (w_force_no w && so_big e); [now destruct O|]. destruct (so_refused _ e); [now destruct O|].
  destruct O as (us & _ & _ & enc & NE & ->). cbn [sw_enc opened] in EN. subst enc. unfold new_enc in NE.
  destruct pre; [discriminate|]. destruct (en_compression e); try discriminate; okinv NE; (split; [reflexivity|]); (split; [discriminate|]); (split; [discriminate|congruence]).
Qed.
Lemma unencoded_fed {cd} (sw : stream_writer cd) b enc : unencoded (fed sw b enc) = fed sw b None.
Proof. reflexivity. Qed.

Lemma visit_linked cd (E : engine cd) view v w : enc_takes cd -> engine_ok cd E view ->
  let '(x, w') := run_visit cd E v w in
  op_good (fst (counts_as (v, x))) -> not_ignored (v, x) -> linked cd w (fst (counts_as (v, x))) (snd (counts_as (v, x))) w'.
Proof.
  intros T OK. destruct v as [o|pre e l k]; cbn [run_visit].
  { pose proof (call_linked cd o w T) as H. destruct (run_op cd o w) as [r w']. intros G _. exact (H G). }
  pose proof (mild_open cd pre e w) as (MO & CO). destruct (stream_open cd pre e w) as [[sw|x|p] w1] eqn:OP; cbn [snd] in MO, CO.
  2:{ intros _ _. pose proof (open_failed _ _ _ _ _ _ OP) as TM. apply linked_of; [exact MO|]. intros _ _. apply step_none; [exact CO|reflexivity|exact TM]. }
  2:{ intros _ _. apply linked_of; [exact MO|]. intros _ _. apply step_none; [exact CO|reflexivity|reflexivity]. }
  destruct (sw_enc sw) as [st|] eqn:EN.
  - (* compressed *)
    destruct (opened_enc _ _ _ _ _ _ _ OP EN) as (-> & NS & ND & ->).
    pose proof (coded_moves E view OK l sw (eg_new E (enc_init cd (en_compression e) LDefault)) w1) as CM.
    pose proof (coded_through E view OK (enc_init cd (en_compression e) LDefault) w1 l sw (eg_new E (enc_init cd (en_compression e) LDefault)) w1 []) as CT.
    rewrite (proj1 OK) in CT.
    destruct (coded_polls E l sw _ w1) as [[[xs sw'] g] w2]. destruct CM as (b & u & f & M).
    unfold coded_close. pose proof (await_moves E view OK k g w2) as AM. pose proof (await_ends E k g w2) as AE.
    pose proof (await_through E view OK (enc_init cd (en_compression e) LDefault) w1 (taken xs) k g w2) as AT.
    destruct (await_close E k g w2) as [[[[]|x|p]|] w3]; destruct AM as (b3 & u3 & f3 & M3).
    + (* closed *)
      destruct (stream_close (unencoded sw') w3) as [r w4] eqn:SC. intros [G1 G2] NI. cbn [counts_as fst snd] in *.
      destruct NI as [NI|[NI|NI]]; [discriminate|contradiction|].
      destruct CT as (TH & ->); [|exact NI|].
      { exists [], [], [], 0. split; [constructor|]. split; [reflexivity|apply moved_refl]. }
      cbn [app] in TH. destruct (AT TH eq_refl) as (out & st & u4 & f4 & RU & M4).
      rewrite unencoded_fed in SC. pose proof (mild_close _ _ _ _ _ _ (taken xs) w3 OP) as MC. rewrite SC in MC. cbn [snd] in MC.
      apply linked_of; [exact (mild_trans _ _ _ MO (mild_trans _ _ _ (mild_moved _ _ _ _ _ M4) MC))|]. intros OF LB.
      assert (LT : len (taken xs) < 0x10000000000000000).
      { unfold op_sized in G2. cbn in G2. rewrite app_nil_r in G2. exact G2. }
      pose proof (closing_step false e w sw w1 (taken xs) _ _ _ w3 G1 LT OF OP M4 (comp_encoded _ _ LDefault _ _ _ NS ND RU)) as S.
      rewrite SC in S. exact (S LB).
    + destruct AE as (io & ->). intros _ _. cbn [counts_as fst snd]. apply linked_of.
      * exact (mild_trans _ _ _ MO (mild_trans _ _ _ (mild_moved _ _ _ _ _ M) (mild_moved _ _ _ _ _ M3))).
      * intros _ _. apply step_none; [|reflexivity|reflexivity]. rewrite (moved_cds _ _ _ _ _ M3), (moved_cds _ _ _ _ _ M). exact CO.
    + contradiction.
    + intros _ _. cbn [counts_as fst snd]. apply linked_of.
      * exact (mild_trans _ _ _ MO (mild_trans _ _ _ (mild_moved _ _ _ _ _ M) (mild_moved _ _ _ _ _ M3))).
      * intros _ _. apply step_none; [|discriminate|reflexivity]. rewrite (moved_cds _ _ _ _ _ M3), (moved_cds _ _ _ _ _ M). exact CO.
  - pose proof (raw_polls_ok l sw w1 EN) as RP. destruct (raw_polls l sw w1) as [[xs sw'] w2]. destruct RP as (u & f & M & ->).
    destruct k as [|k].
    + intros _ _. cbn [counts_as fst snd]. apply linked_of; [exact (mild_trans _ _ _ MO (mild_moved _ _ _ _ _ M))|].
      intros _ _. apply step_none; [|discriminate|reflexivity]. rewrite (moved_cds _ _ _ _ _ M). exact CO.
    + pose proof (mild_close _ _ _ _ _ _ (taken xs) w2 OP) as MC. destruct (stream_close (fed sw (taken xs) None) w2) as [r w3] eqn:SC. cbn [snd] in MC.
      intros [G1 G2] _. cbn [counts_as fst snd] in *. apply linked_of; [exact (mild_trans _ _ _ MO (mild_trans _ _ _ (mild_moved _ _ _ _ _ M) MC))|].
      intros OF LB. assert (LT : len (taken xs) < 0x10000000000000000).
      { unfold op_sized in G2. cbn in G2. rewrite app_nil_r in G2. exact G2. }
      assert (PK : packed cd pre e (taken xs) (taken xs)).
      { unfold packed. destruct pre; [reflexivity|]. apply comp_stored. 
        pose proof (stream_open_spec cd false e w) as O. cbv zeta in O. rewrite OP in O.
        destruct (w_force_no w && so_big e); [now destruct O|]. destruct (so_refused _ e); [now destruct O|].
        destruct O as (us & _ & _ & enc & NE & ->). cbn [sw_enc opened] in EN. subst enc. unfold new_enc in NE.
        destruct (en_compression e); [reflexivity|discriminate..]. }
      pose proof (closing_step pre e w sw w1 (taken xs) _ _ _ w2 G1 LT OF OP M PK) as S. rewrite SC in S. exact (S LB).
Qed.
Lemma visits_chain cd (E : engine cd) view : enc_takes cd -> engine_ok cd E view -> forall l w,
  let '(outs, w') := run_visits cd E l w in
  Forall (fun x => op_good (fst (counts_as x))) outs -> Forall not_ignored outs -> chain cd w (map counts_as outs) w'.
Proof.
  intros T OK. induction l as [|v l IH]; intro w; cbn [run_visits]; [intros; constructor|].
  pose proof (visit_linked cd E view v w T OK) as H. destruct (run_visit cd E v w) as [x w1]. specialize (IH w1).
  destruct (run_visits cd E l w1) as [outs w2]. intros G NI. apply Forall_cons_iff in G, NI. destruct G as [G1 G2], NI as [N1 N2].
  cbn [map]. specialize (H G1 N1). destruct (counts_as (v, x)) as [o r]. econstructor; [exact H|now apply IH].
Qed.
Lemma visited_shape cd (E : engine cd) view sched l : enc_takes cd -> engine_ok cd E view ->
  let '(outs, r, w) := visited_archive cd E sched l in
  Forall (fun x => op_good (fst (counts_as x))) outs -> Forall not_ignored outs -> r = Ok tt -> len (w_bytes w) < 0x10000000000000000 ->
  exists body its ms, shape cd (map fst (map counts_as outs)) (map counts_as outs) (w_bytes w) (w_zip64 w) body its ms.
Proof.
  intros T OK. unfold visited_archive. pose proof (visits_chain cd E view T OK l (zw_new sched)) as H.
  destruct (run_visits cd E l (zw_new sched)) as [outs w]. destruct (zw_close w) as [r w'] eqn:C. intros G NI -> LB.
  destruct (chain_shape cd sched _ _ _ (H G NI) C LB) as (its & ms & SH). now exists (w_bytes w), its, ms.
Qed.
Lemma visited_back cd (E : engine cd) view cfg sched s l : codec_ok cd -> engine_ok cd E view ->
  let '(outs, r, w) := visited_archive cd E sched l in
  let xs := map counts_as outs in
  let d := w_bytes w in
  Forall (fun x => op_good (fst x)) xs -> Forall not_ignored outs ->
  r = Ok tt -> unambiguous cd cfg (map fst xs) xs (w_zip64 w) d -> s_data s = d -> nofail (s_sched s) ->
  exists f, fst (file cfg s) = Ok f /\ mem_new cfg d = Ok {| m_data := d; m_file := f |} /\ f_zip64 f = w_zip64 w /\
    comment_reads_as (last_comment (map fst xs)) (f_comment f) /\
    Forall2 (fun x st => exists it, leaves cd (fst x) (snd x) it /\ as_written d it st /\ texts_kept it st) (succeeded false xs) (f_entries f) /\
    (forall i no64 o data, nth_error (succeeded false xs) (N.to_nat i) = Some (no64, o) -> holds cd o data ->
       (forall it, leaves cd no64 o it -> straight it) ->
       read_entry cd f i s = Ok data /\ mem_read_entry cd {| m_data := d; m_file := f |} i = Ok data).
Proof.
  intros K OK. pose proof (visited_shape cd E view sched l (proj1 K) OK) as H. destruct (visited_archive cd E sched l) as [[outs r] w]. cbv zeta.
  intros G NI R UN SD NF. rewrite Forall_map in G. assert (LB : len (w_bytes w) < 0x10000000000000000) by (destruct UN; assumption).
  destruct (H G NI R LB) as (body & its & ms & SH). exact (shape_back cd cfg s _ _ _ _ _ _ _ K SH UN SD NF).
Qed.
Lemma visited_seen cd (E : engine cd) view sched l : codec_ok cd -> engine_ok cd E view ->
  let '(outs, r, w) := visited_archive cd E sched l in
  let xs := map counts_as outs in
  let d := w_bytes w in
  Forall (fun x => op_good (fst x)) xs -> Forall not_ignored outs ->
  r = Ok tt -> len d < 0x10000000000000000 -> Forall (fun x => too_many (snd x) = false) xs -> sizes_tell cd d (succeeded false xs) ->
  others_clear (w_zip64 w) (last_comment (map fst xs)) d -> (w_zip64 w = true \/ len d <= 0xFFFFFFFF) ->
  (len d <= 0xFFFFFFFF \/ ~ found_at (le 4 0x04034b50) d 0xFFFFFFFF) -> Forall (unexchanged cd) (succeeded false xs) -> Forall (told_right cd) (succeeded false xs) ->
  exists vs, sights cd d = Some vs /\ Forall2 (fun x v => seen_as cd (snd x) v) (succeeded false xs) vs.
Proof.
  intros K OK. pose proof (visited_shape cd E view sched l (proj1 K) OK) as H. destruct (visited_archive cd E sched l) as [[outs r] w]. cbv zeta.
  intros G NI R LB TM SZ EC ZB NF UX TR. rewrite Forall_map in G.
  destruct (H G NI R LB) as (body & its & ms & SH). exact (shape_seen cd _ _ _ _ _ _ _ K SH LB TM SZ EC ZB NF UX TR).
Qed.
