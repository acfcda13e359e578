(** What a history of writer calls leaves behind. *)
From Verif Require Import Base BaseFacts Crc32 CrcFacts SpecFormat SpecCrc SpecArchive ZString ZDate Headers HeadersFacts
  ExtraField ExtraFieldFacts Entry IO Reader EntryReader Writer WriterFacts WholeFacts StreamFacts SpecWrite OpenFacts RecordFacts WriteProofs.
Arguments N.add : simpl never.
Arguments N.sub : simpl never.
Arguments N.min : simpl never.
Arguments N.max : simpl never.

(** ** Encoders *)
Lemma runs_app cd s1 f1 o1 s2 : enc_runs cd s1 f1 o1 s2 -> forall f2 o2 s3, enc_runs cd s2 f2 o2 s3 ->
  enc_runs cd s1 (f1 ++ f2) (o1 ++ o2) s3.
Proof.
  induction 1 as [st|st b n o st1 fed out st2 E _ IH|st o st1 fed out st2 E _ IH]; intros f2 o2 s3 H.
  - exact H.
  - rewrite <- !app_assoc. eapply runs_write; [exact E|]. now apply IH.
  - rewrite <- app_assoc. eapply runs_flush; [exact E|]. now apply IH.
Qed.
Lemma feed_runs cd : enc_takes cd -> forall fu st buf, (length buf < fu)%nat ->
  let '(o, st') := feed cd fu st buf in enc_runs cd st buf o st'.
Proof.
  intro T. induction fu as [|fu IH]; intros st buf L; [lia|]. cbn [feed].
  destruct (N.eqb_spec (len buf) 0) as [E|E]; [apply len_0 in E; subst; constructor|].
  specialize (T st buf ltac:(intros ->; now apply E)). destruct (enc_write cd st buf) as [[n out] st1] eqn:EW. destruct T as [T1 T2].
  assert (L' : (length (drop n buf) < fu)%nat) by (pose proof (len_drop n buf); unfold len in *; lia).
  specialize (IH st1 (drop n buf) L'). destruct (feed cd fu st1 (drop n buf)) as [o st2].
  replace buf with (firstn (N.to_nat n) buf ++ drop n buf) at 1 by (rewrite drop_skipn; apply firstn_skipn).
  eapply runs_write; eassumption.
Qed.
Lemma feed_ops_runs cd : enc_takes cd -> forall l st,
  let '(o, enc) := feed_ops (Some st) l in exists st', enc = Some st' /\ enc_runs cd st (fed_bytes l) o st'.
Proof.
  intro T. induction l as [|op l IH]; intro st; cbn [feed_ops].
  - exists st. split; [easy|]. constructor.
  - destruct op as [b|]; cbn [feed_op].
    + pose proof (feed_runs cd T (S (length b)) st b ltac:(lia)) as F. destruct (feed cd (S (length b)) st b) as [o1 st1].
      specialize (IH st1). destruct (feed_ops (Some st1) l) as [o2 enc2]. destruct IH as (st' & -> & R).
      exists st'. split; [easy|]. change (fed_bytes (SWriteAll b :: l)) with (b ++ fed_bytes l). eapply runs_app; eassumption.
    + destruct (enc_flush cd st) as [o1 st1] eqn:E. specialize (IH st1). destruct (feed_ops (Some st1) l) as [o2 enc2].
      destruct IH as (st' & -> & R). exists st'. split; [easy|]. change (fed_bytes (SFlush :: l)) with (fed_bytes l).
      eapply runs_flush; eassumption.
Qed.
Lemma feed_ops_none cd l : @feed_ops cd None l = (fed_bytes l, None).
Proof.
  induction l as [|op l IH]; [easy|]. cbn [feed_ops]. destruct op; cbn [feed_op]; rewrite IH; reflexivity.
Qed.
Lemma content_fed l : content l = fed_bytes l. Proof. reflexivity. Qed.
Lemma enc_all_runs cd : enc_takes cd -> forall fu st buf x, enc_all cd fu st buf = Ok x -> enc_runs cd st buf (fst x) (snd x).
Proof.
  intro T. induction fu as [|fu IH]; intros st buf x H; [discriminate|]. cbn [enc_all] in H.
  destruct (N.eqb_spec (len buf) 0) as [E|E].
  - okinv H. subst x. apply len_0 in E. subst. constructor.
  - specialize (T st buf ltac:(intros ->; now apply E)). destruct (enc_write cd st buf) as [[n out] st1] eqn:EW.
    destruct (N.eqb_spec n 0) as [Z|Z]; [discriminate|].
    destruct (enc_all cd fu st1 (drop n buf)) as [y|y|y] eqn:EA; cbn in H; try discriminate. okinv H. subst x. cbn [fst snd].
    replace buf with (firstn (N.to_nat n) buf ++ drop n buf) at 1 by (rewrite drop_skipn; apply firstn_skipn).
    eapply runs_write; [exact EW|]. now apply IH.
Qed.
Lemma compress_compressed cd c l d z : enc_takes cd -> compress cd c l d = Ok z -> compressed cd c d z.
Proof.
  intros T H. unfold compress in H.
  destruct c; try discriminate; (destruct (enc_all _ _ _ _) as [x|x|x] eqn:E; cbn in H; try discriminate; okinv H; subst z;
    eapply comp_encoded; [discriminate|discriminate|eapply enc_all_runs; eassumption]).
Qed.

(** ** One call *)
Definition item_image (it : item) (v : N) (f : bool) (lx : list extra_field) : bytes :=
  local_image it v f lx ++ i_data it ++ descriptor_image it.
Definition entry_laid (c : cd_entry) (it : item) (img : bytes) : Prop :=
  exists a v f lx, laid_out it a v f lx /\ img = item_image it v f lx /\ ce_bytes c = member_record a /\ (sizes_clear it -> member_ok a).


Inductive step (cd : codec) (o : wop) (w : world) (r : res unit) (w' : world) : Prop :=
| step_none : w_cds w' = w_cds w -> (writes_entry o = true -> worked r = false) -> too_many r = false -> step cd o w r w'
| step_some c it img :
    writes_entry o = true -> w_cds w' = w_cds w ++ [c] -> w_bytes w' = w_bytes w ++ img -> i_off it = w_offset w ->
    leaves cd (w_force_no w) o it -> entry_laid c it img ->
    (w_force_no w = true -> i_big it = false /\ is_over (i_off it) = false) ->
    (in64 it || off64 it = true -> w_zip64 w' = true) ->
    (if (65535 <? len (w_cds w')) && w_force_no w then too_many r = true /\ worked r = false
     else worked r = true /\ (65535 < len (w_cds w') -> w_zip64 w' = true)) ->
    (w_zip64 w' = true -> w_zip64 w = true \/ in64 it || off64 it = true \/ 65535 < len (w_cds w')) ->
    step cd o w r w'.

Lemma too_many_upstream io : too_many (Err (UpstreamReadError io)) = false. Proof. reflexivity. Qed.

Lemma push_step fn c w1 : let '(r, w2) := push_and_check fn c w1 in
  w_cds w2 = w_cds w1 ++ [c] /\ w_bytes w2 = w_bytes w1 /\ (w_zip64 w1 = true -> w_zip64 w2 = true) /\
  (if (65535 <? len (w_cds w2)) && fn then too_many r = true /\ worked r = false
   else worked r = true /\ (65535 < len (w_cds w2) -> w_zip64 w2 = true)).
Proof.
  rewrite push_and_check_eq. cbv zeta. change NON_ZIP64_MAX_NUM_FILES with 65535.
  destruct (N.ltb_spec 65535 (len (w_cds (push_cd w1 c)))) as [L|L]; [destruct fn|]; cbn [andb].
  - ands; try reflexivity; [auto|]. replace (65535 <? len (w_cds (push_cd w1 c))) with true by lia. split; reflexivity.
  - ands; try reflexivity. rewrite andb_false_r. split; [reflexivity|]. intros _. reflexivity.
  - ands; try reflexivity; [auto|]. replace (65535 <? len (w_cds (push_cd w1 c))) with false by lia. split; [reflexivity|].
    intro. lia.
Qed.

Lemma push_zip64 fn c w1 : let '(r, w2) := push_and_check fn c w1 in w_zip64 w2 = true -> w_zip64 w1 = true \/ 65535 < len (w_cds w2).
Proof.
  rewrite push_and_check_eq. cbv zeta. change NON_ZIP64_MAX_NUM_FILES with 65535.
  destruct (N.ltb_spec 65535 (len (w_cds (push_cd w1 c)))) as [L|L]; [destruct fn|]; auto.
Qed.

Lemma whole_body_step cd o e u c d w :
  let it := whole_item (w_force_no w) e u c d (w_offset w) in
  writes_entry o = true -> entry_fine e -> u < 0x10000000000000000 -> c < 0x100000000 ->
  leaves cd (w_force_no w) o it -> w_offset w = len (w_bytes w) ->
  let '(r, w') := whole_write_body (measured e u c) d w in
  len (w_bytes w') < 0x10000000000000000 -> step cd o w r w'.
Proof.
  cbv zeta. intros WE EF Hu Hc LV OF. rewrite whole_body_eq. cbv zeta. set (e' := measured e u c). set (off := w_offset w) in *.
  change (wh_big e' d) with (i_big (whole_item (w_force_no w) e u c d off)). set (it := whole_item (w_force_no w) e u c d off) in *.
  change (over off) with (is_over (i_off it)).
  destruct ((i_big it || is_over (i_off it)) && w_force_no w) eqn:FB; [intros _; now apply step_none|].
  assert (WC : w_cds (wh_world e' d w) = w_cds w) by (unfold wh_world; now destruct (_ || _)).
  assert (WB : w_bytes (wh_world e' d w) = w_bytes w) by (unfold wh_world; now destruct (_ || _)).
  destruct (wh_refused e' d off) as [x|] eqn:R.
  { intros _. apply step_none; [exact WC|reflexivity|]. unfold wh_refused in R. cbv zeta in R.
    repeat match type of R with (if ?b then _ else _) = _ => destruct b end; try discriminate; injection R as <-; reflexivity. }
  unfold bind. pose proof (puts_ok (head_writes (wh_lfh e' d off) (wh_e3 e' d off) ++ [d]) (wh_world e' d w)) as P. unfold put_ok in P.
  destruct (puts _ (wh_world e' d w)) as [[x|x|p] w1]; cbn [fst snd] in P; destruct P as (us & P); [| |easy].
  2:{ destruct P as (io & p & -> & _ & M & _). intros _. apply step_none; [|reflexivity|reflexivity].
      rewrite (moved_cds _ _ _ _ _ M). exact WC. }
  destruct P as [M _]. pose proof (moved_cds _ _ _ _ _ M) as C1. pose proof (moved_bytes _ _ _ _ _ M) as B1.
  pose proof (moved_zip64 _ _ _ _ _ M) as Z1. rewrite WC in C1. rewrite WB in B1.
  rewrite concat_app in B1. cbn [concat] in B1. rewrite app_nil_r in B1. fold (head_bytes (wh_lfh e' d off) (wh_e3 e' d off)) in B1.
  destruct (N.ltb_spec (fields_count_bytes (en_extra (wh_e4 e' d off))) 65536) as [L4|L4].
  2:{ intros _. apply step_none; [exact C1|reflexivity|reflexivity]. }
  pose proof (push_step (w_force_no w) (wh_cd e' d off) w1) as PS. pose proof (push_zip64 (w_force_no w) (wh_cd e' d off) w1) as PZ.
  destruct (push_and_check (w_force_no w) (wh_cd e' d off) w1) as [r w2]. destruct PS as (C2 & B2 & Z2 & PS).
  intro LB. rewrite B2, B1, !len_app in LB.
  destruct (whole_laid (w_force_no w) e u c d off EF Hu Hc ltac:(lia) ltac:(lia) R L4) as (a & v & f & lx & LO & HB & CB & MO).
  fold it e' in LO, HB, CB, MO.
  apply (step_some cd o w r w2 (wh_cd e' d off) it (item_image it v f lx)).
  - exact WE.
  - now rewrite C2, C1.
  - rewrite B2, B1, HB. unfold item_image. change (descriptor_image it) with (@nil byte). rewrite app_nil_r. reflexivity.
  - reflexivity.
  - exact LV.
  - exists a, v, f, lx. auto.
  - intro FN. rewrite FN, andb_true_r in FB. apply orb_false_iff in FB. exact FB.
  - intro I. apply Z2. rewrite Z1. unfold wh_world. change (wh_big e' d) with (in64 it). change (over (w_offset w)) with (off64 it).
    rewrite I. reflexivity.
  - exact PS.
  - intro H. destruct (PZ H) as [H1|H1]; [|auto]. rewrite Z1 in H1. unfold wh_world in H1. change (wh_big e' d) with (in64 it) in H1. change (over (w_offset w)) with (off64 it) in H1.
    destruct (in64 it || off64 it); auto.
Qed.

Lemma stream_step cd pre e body closed w :
  enc_takes cd -> entry_fine e -> len (fed_bytes body) < 0x10000000000000000 -> w_offset w = len (w_bytes w) ->
  let '(r, w') := run_op cd (OpStream pre e body closed) w in
  len (w_bytes w') < 0x10000000000000000 -> step cd (OpStream pre e body closed) w r w'.
Proof.
  intros T EF HC OF. cbn [run_op]. pose proof (stream_open_spec cd pre e w) as O. cbv zeta in O.
  set (fn := w_force_no w) in *. unfold bind at 1. destruct (stream_open cd pre e w) as [r w1].
  assert (WC : w_cds (so_world w) = w_cds w) by (unfold so_world; now destruct (w_force_no w)).
  assert (WB : w_bytes (so_world w) = w_bytes w) by (unfold so_world; now destruct (w_force_no w)).
  assert (WZ : fn = false -> w_zip64 (so_world w) = true) by (unfold so_world, fn; now intros ->).
  destruct (fn && so_big e) eqn:SB; [destruct O as [-> ->]; intros _; now apply step_none|].
  destruct (so_refused fn e) as [x|] eqn:R.
  { destruct O as [-> ->]. intros _. apply step_none; [exact WC|reflexivity|]. unfold so_refused in R. cbv zeta in R.
    repeat match type of R with (if ?b then _ else _) = _ => destruct b end; try discriminate; injection R as <-; reflexivity. }
  destruct O as (us & O). destruct r as [sw|x|p].
  2:{ destruct O as (io & p & -> & _ & M & _). intros _. apply step_none; [|reflexivity|reflexivity].
      rewrite (moved_cds _ _ _ _ _ M). exact WC. }
  2:{ destruct O as (_ & _ & _ & M). intros _. apply step_none; [|reflexivity|reflexivity]. rewrite (moved_cds _ _ _ _ _ M). exact WC. }
  destruct O as (M1 & _ & enc & NE & ->). destruct (so_count _ _ R) as [C1 _].
  set (head := head_bytes (so_lfh fn e) (so_e3 fn e)) in *. set (off := w_offset w) in *. set (doff := off + len head) in *.
  pose proof (moved_cds _ _ _ _ _ M1) as MC1. pose proof (moved_bytes _ _ _ _ _ M1) as MB1. pose proof (moved_zip64 _ _ _ _ _ M1) as MZ1.
  pose proof (moved_offset _ _ _ _ _ M1) as MO1. replace (w_offset (so_world w)) with off in MO1 by (unfold so_world; now destruct (w_force_no w)).
  rewrite WC in MC1. rewrite WB in MB1.
  pose proof (stream_body_ok body T (opened pre fn e off doff enc) w1) as B. cbn [sw_enc opened] in B.
  unfold bind at 1.
  destruct (feed_ops enc body) as [out enc'] eqn:FO. unfold fed_ok in B.
  destruct (stream_body (opened pre fn e off doff enc) body w1) as [[sw2|x|p] w2]; cbn [fst snd] in B; destruct B as (u2 & B); [| |easy].
  2:{ destruct B as (io & p & f & -> & _ & M & _). intros _. apply step_none; [|reflexivity|reflexivity].
      rewrite (moved_cds _ _ _ _ _ M). exact MC1. }
  destruct B as (nf & M2 & ->). rewrite content_fed.
  pose proof (moved_cds _ _ _ _ _ M2) as MC2. pose proof (moved_bytes _ _ _ _ _ M2) as MB2. pose proof (moved_zip64 _ _ _ _ _ M2) as MZ2.
  pose proof (moved_offset _ _ _ _ _ M2) as MO2. rewrite MC1 in MC2. rewrite MB1 in MB2. rewrite MO1 in MO2.
  destruct closed; [|intros _; apply step_none; [exact MC2|discriminate|reflexivity]].
  set (sw := fed (opened pre fn e off doff enc) (fed_bytes body) enc').
  rewrite stream_close_eq; [|exact C1|reflexivity].
  change (sw_enc sw) with enc'.
  unfold bind. pose proof (puts_ok (fin_writes enc') w2) as P. unfold put_ok in P.
  destruct (puts (fin_writes enc') w2) as [[x|x|p] w3]; cbn [fst snd] in P; destruct P as (u3 & P); [| |easy].
  2:{ destruct P as (io & p & -> & _ & M & _). intros _. apply step_none; [|reflexivity|reflexivity]. rewrite (moved_cds _ _ _ _ _ M). exact MC2. }
  destruct P as [M3 _].
  pose proof (moved_cds _ _ _ _ _ M3) as MC3. pose proof (moved_bytes _ _ _ _ _ M3) as MB3. pose proof (moved_zip64 _ _ _ _ _ M3) as MZ3.
  pose proof (moved_offset _ _ _ _ _ M3) as MO3. rewrite MC2 in MC3. rewrite MB2 in MB3. rewrite MO2 in MO3.
  set (z := out ++ concat (fin_writes enc')) in *.
  assert (CS : w_offset w3 - doff = len z) by (unfold z, doff; rewrite MO3, len_app; lia).
  unfold close_rest. cbv zeta. change (sw_data_offset sw) with doff. change (sw_force_no sw) with fn. rewrite CS.
  destruct (fn && sc_big sw (len z)) eqn:BG; [intros _; now apply step_none|].
  destruct (N.ltb_spec (fields_count_bytes (en_extra (sc_e2 sw (len z)))) 65536) as [L2|L2]; cbn [negb].
  2:{ intros _. apply step_none; [exact MC3|reflexivity|reflexivity]. }
  unfold bind. pose proof (puts_ok (sc_descriptor sw (len z)) w3) as P. unfold put_ok in P.
  destruct (puts (sc_descriptor sw (len z)) w3) as [[y|y|p] w4]; cbn [fst snd] in P; destruct P as (u4 & P); [| |easy].
  2:{ destruct P as (io & p & -> & _ & M & _). intros _. apply step_none; [|reflexivity|reflexivity]. rewrite (moved_cds _ _ _ _ _ M). exact MC3. }
  destruct P as [M4 _].
  pose proof (moved_cds _ _ _ _ _ M4) as MC4. pose proof (moved_bytes _ _ _ _ _ M4) as MB4. pose proof (moved_zip64 _ _ _ _ _ M4) as MZ4.
  rewrite MC3 in MC4. rewrite MB3 in MB4.
  destruct (N.ltb_spec (len (basic_bytes (en_comment (sw_entry sw)))) 65536) as [LC|LC].
  2:{ intros _. apply step_none; [exact MC4|reflexivity|reflexivity]. }
  pose proof (push_step fn (sc_cd sw (len z)) w4) as PS. pose proof (push_zip64 fn (sc_cd sw (len z)) w4) as PZ.
  destruct (push_and_check fn (sc_cd sw (len z)) w4) as [r w5]. destruct PS as (C5 & B5 & Z5 & PS).
  intro LB. rewrite B5, MB4, !len_app in LB.
  assert (LZ : len z < 0x10000000000000000) by (unfold z; rewrite len_app; lia).
  destruct (stream_laid pre fn e off doff enc (fed_bytes body) enc' z EF HC LZ ltac:(lia) SB R BG L2 LC) as (a & v & f & lx & LO & HB & DB & CB & MO).
  set (it := stream_item fn e (sw_usize pre e (fed_bytes body)) (sw_crc pre e (fed_bytes body)) z off) in *.
  apply (step_some cd _ w r w5 (sc_cd sw (len z)) it (item_image it v f lx)).
  - reflexivity.
  - now rewrite C5, MC4.
  - rewrite B5, MB4. change sw with (fed (opened pre fn e off doff enc) (fed_bytes body) enc'). rewrite DB. fold head in HB. rewrite HB.
    unfold item_image. change (i_data it) with z. unfold z. now rewrite <- !app_assoc.
  - reflexivity.
  - unfold it, z, stream_item. unfold sw_usize, sw_crc. destruct pre.
    + cbn in NE. okinv NE. subst enc. rewrite feed_ops_none in FO. injection FO as <- <-. cbn [fin_writes concat]. rewrite app_nil_r. apply leaves_stream_pre.
    + apply leaves_stream. unfold new_enc in NE.
      destruct (en_compression e) eqn:CE; try discriminate; okinv NE; subst enc.
      { rewrite feed_ops_none in FO. injection FO as <- <-. cbn [fin_writes concat]. rewrite app_nil_r. now constructor. }
      all: pose proof (feed_ops_runs cd T body (enc_init cd (en_compression e) LDefault)) as FR; rewrite CE, FO in FR; destruct FR as (st' & -> & FR);
        cbn [fin_writes concat]; rewrite app_nil_r; eapply comp_encoded; [discriminate|discriminate|exact FR].
  - exists a, v, f, lx. auto.
  - fold fn. intro FN. rewrite FN in BG. cbn [andb] in BG. unfold sc_big in BG.
    apply orb_false_iff in BG as [BG B3]. apply orb_false_iff in BG as [BG1 BG2]. 
    assert (E1 : en_uncompressed_size (sc_e1 sw) = i_usize it).
    { unfold sc_e1, sw, fed, sw_advance, opened, it, sw_usize. cbn [sw_pre sw_entry sw_uoffset i_usize stream_item]. destruct pre; [|reflexivity].
      unfold so_e3, so_e2, add_unicode_fields. destruct fn, (utf8_flag _); reflexivity. }
    rewrite E1 in BG1. split; [|exact B3]. unfold i_big. apply orb_false_iff. split; [exact BG1|exact BG2].
  - intro I. apply Z5. rewrite MZ4, MZ3, MZ2, MZ1. apply WZ. unfold in64, off64 in I. cbn in I. now destruct fn.
  - fold fn. exact PS.
  - intro H. destruct (PZ H) as [H1|H1]; [|auto]. rewrite MZ4, MZ3, MZ2, MZ1 in H1. unfold so_world in H1. change (in64 it) with (negb fn). unfold fn.
    destruct (w_force_no w); cbn; auto.
Qed.

Lemma enc_all_no_err cd : forall fu st buf x, enc_all cd fu st buf = Err x -> False.
Proof.
  induction fu as [|fu IH]; intros st buf x H; [discriminate|]. cbn [enc_all] in H.
  destruct (len buf =? 0); [discriminate|]. destruct (enc_write cd st buf) as [[n out] st'].
  destruct (n =? 0); [discriminate|]. destruct (enc_all cd fu st' (drop n buf)) as [y|y|y] eqn:E; try discriminate.
  exact (IH _ _ _ E).
Qed.
Lemma compress_no_err cd c l d x : compress cd c l d = Err x -> False.
Proof.
  intro H. unfold compress in H. 
  destruct c; try discriminate; destruct (enc_all _ _ _ _) as [q|q|q] eqn:EA; cbn in H; try discriminate;
    exact (enc_all_no_err _ _ _ _ _ EA).
Qed.

Lemma run_op_step cd o w : enc_takes cd -> op_good o -> w_offset w = len (w_bytes w) ->
  let '(r, w') := run_op cd o w in
  len (w_bytes w') < 0x10000000000000000 -> step cd o w r w'.
Proof.
  intros T (EF & SZ) OF. destruct o as [| |cm|e d|e d|pre e body closed]; try (cbn [run_op]; unfold modify; intros _; now apply step_none).
  - cbn [run_op]. unfold write_entry_whole. cbv zeta. fold (measured e (len d) (crc32 d)).
    cbn [en_compression measured set_crc32 set_uncompressed_size]. cbn in EF, SZ.
    assert (HC : crc32 d < 0x100000000) by exact (crc32_bound d).
    assert (G : forall z, compressed cd (en_compression e) d z ->
      let '(r, w') := whole_write_body (measured e (len d) (crc32 d)) z w in
      len (w_bytes w') < 0x10000000000000000 -> step cd (OpWhole e d) w r w').
    { intros z Hz. apply whole_body_step; try easy. rewrite crc32_is_spec. now apply leaves_whole. }
    destruct (en_compression e) eqn:CE; [apply G; now constructor|..];
      (unfold bind, lift; destruct (compress cd _ _ d) as [z|x|p] eqn:CZ;
       [apply G; eapply compress_compressed; eassumption|..]; intros _; apply step_none; try reflexivity).
    all: exact (False_ind _ (compress_no_err _ _ _ _ _ CZ)).
  - cbn [run_op]. unfold write_entry_whole_precompressed. cbn in EF. 
    pose proof (f_equal (fun e => whole_write_body e d w) (measured_self e)) as MS. cbv beta in MS. rewrite <- MS. clear MS. destruct EF as [Wt Pl]. pose proof Wt as (D1 & D2 & D3 & D4 & D5 & D6 & D7).
    apply whole_body_step; try easy. apply leaves_pre.
  - now apply stream_step.
Qed.

(** ** What an entry call leaves alone: ZIP64 prohibition and comment; ZIP64 mode is never switched off *)
Definition keeps (w w' : world) : Prop :=
  w_force_no w' = w_force_no w /\ w_comment w' = w_comment w /\ (w_zip64 w = true -> w_zip64 w' = true).
Lemma keeps_refl w : keeps w w. Proof. now repeat split. Qed.
Lemma keeps_trans a b c : keeps a b -> keeps b c -> keeps a c.
Proof. intros (A1 & A2 & A3) (B1 & B2 & B3). repeat split; [congruence|congruence|auto]. Qed.
Lemma moved_keeps w w' b u f : moved w w' b u f -> keeps w w'.
Proof. intros [_ ->]. now repeat split. Qed.
Lemma keeps_zip64 w : keeps w (set_zip64 w true). Proof. now repeat split. Qed.
Lemma keeps_push w c : keeps w (push_cd w c). Proof. now repeat split. Qed.
Definition steadfast {A} (m : SM world A) : Prop := forall w, keeps w (snd (m w)).
Lemma steadfast_ret {A} (a : A) : steadfast (ret a). Proof. intro. apply keeps_refl. Qed.
Lemma steadfast_fail {A} e : steadfast (@fail _ A e). Proof. intro. apply keeps_refl. Qed.
Lemma steadfast_lift {A} (r : res A) : steadfast (lift r). Proof. intro. apply keeps_refl. Qed.
Lemma steadfast_get : steadfast get. Proof. intro. apply keeps_refl. Qed.
Lemma steadfast_bind {A B} (m : SM world A) (k : A -> SM world B) : steadfast m -> (forall a, steadfast (k a)) -> steadfast (bind m k).
Proof.
  intros Hm Hk w. unfold bind. specialize (Hm w). destruct (m w) as [[a|e|p] w1]; [|easy|easy].
  eapply keeps_trans; [exact Hm|apply Hk].
Qed.
Lemma steadfast_modify f : (forall w, keeps w (f w)) -> steadfast (modify f).
Proof. intros H w. apply H. Qed.
Lemma steadfast_ow_write b : steadfast (ow_write b).
Proof.
  intro w. pose proof (ow_write_spec b w) as S. destruct (ow_write b w) as [[n|e|p] w']; destruct S as (u & S); [| |easy].
  - destruct S as (_ & M & _). eapply moved_keeps; exact M.
  - destruct S as (io & _ & M & _). eapply moved_keeps; exact M.
Qed.
Lemma steadfast_ow_flush : steadfast ow_flush.
Proof.
  intro w. pose proof (ow_flush_spec w) as S. destruct (ow_flush w) as [[n|e|p] w']; destruct S as (u & S); [| |easy].
  - destruct S as (_ & M & _). eapply moved_keeps; exact M.
  - destruct S as (io & _ & M & _). eapply moved_keeps; exact M.
Qed.
Lemma steadfast_write_all b : steadfast (write_all b).
Proof.
  intro w. pose proof (write_all_spec b w) as S. destruct (write_all b w) as [[n|e|p] w']; destruct S as (u & S); [| |easy].
  - destruct S as (M & _). eapply moved_keeps; exact M.
  - destruct S as (io & p & _ & _ & M & _). eapply moved_keeps; exact M.
Qed.

Ltac steadfast_tac :=
  cbv beta;
  lazymatch goal with
  | |- steadfast (bind _ _) => apply steadfast_bind; [steadfast_tac|intro; steadfast_tac]
  | |- steadfast (let x := ?v in _) => cbv zeta; steadfast_tac
  | |- steadfast (match ?x with _ => _ end) => destruct x; steadfast_tac
  | |- steadfast get => apply steadfast_get
  | |- steadfast (ret _) => apply steadfast_ret
  | |- steadfast (fail _) => apply steadfast_fail
  | |- steadfast (lift _) => apply steadfast_lift
  | |- steadfast (write_all _) => apply steadfast_write_all
  | |- steadfast (ow_write _) => apply steadfast_ow_write
  | |- steadfast ow_flush => apply steadfast_ow_flush
  | |- steadfast (modify _) => apply steadfast_modify; intro; first [apply keeps_zip64|apply keeps_push]
  | |- _ => idtac
  end.
Lemma steadfast_enforce_zip64 : steadfast enforce_zip64.
Proof. intro w. unfold enforce_zip64. destruct (w_force_no w); [apply keeps_refl|apply keeps_zip64]. Qed.
Lemma steadfast_push_and_check f c : steadfast (push_and_check f c).
Proof. unfold push_and_check. steadfast_tac. Qed.
Lemma steadfast_whole_body e d : steadfast (whole_write_body e d).
Proof.
  unfold whole_write_body, enforce_zip64_sizes, enforce_zip64_offset.
  steadfast_tac; first [apply steadfast_enforce_zip64 | apply steadfast_push_and_check].
Qed.
Lemma steadfast_whole cd e d : steadfast (write_entry_whole cd e d).
Proof. unfold write_entry_whole. steadfast_tac; apply steadfast_whole_body. Qed.
Lemma steadfast_write_lfh e : steadfast (write_lfh e).
Proof. unfold write_lfh. steadfast_tac. Qed.
Lemma steadfast_stream_open cd pre e : steadfast (stream_open cd pre e).
Proof. unfold stream_open. steadfast_tac; apply steadfast_write_lfh. Qed.
Lemma steadfast_stream_write {cd} (sw : stream_writer cd) b : steadfast (stream_write sw b).
Proof. unfold stream_write. steadfast_tac. Qed.
Lemma steadfast_stream_write_all {cd} : forall fu (sw : stream_writer cd) b, steadfast (stream_write_all_loop fu sw b).
Proof.
  induction fu as [|fu IH]; intros; cbn [stream_write_all_loop]; [steadfast_tac|].
  destruct (len b =? 0); [steadfast_tac|]. apply steadfast_bind; [apply steadfast_stream_write|]. intros [n sw'].
  destruct (n =? 0); [steadfast_tac|apply IH].
Qed.
Lemma steadfast_stream_flush {cd} (sw : stream_writer cd) : steadfast (stream_flush sw).
Proof. unfold stream_flush. steadfast_tac. Qed.
Lemma steadfast_stream_body {cd} l : forall sw : stream_writer cd, steadfast (stream_body sw l).
Proof.
  induction l as [|[b|] l IH]; intro sw; cbn [stream_body]; [steadfast_tac| |].
  - apply steadfast_bind; [apply steadfast_stream_write_all|intro; apply IH].
  - apply steadfast_bind; [apply steadfast_stream_flush|intro; apply IH].
Qed.
Lemma steadfast_stream_close {cd} (sw : stream_writer cd) : steadfast (stream_close sw).
Proof. unfold stream_close, compressed_close, shutdown_ignored_close. steadfast_tac; apply steadfast_push_and_check. Qed.

Lemma run_op_keeps cd o w : let w' := snd (run_op cd o w) in
  w_force_no w' = no_after (w_force_no w) o /\ w_comment w' = comment_after (w_comment w) o /\ (w_zip64 w = true -> w_zip64 w' = true).
Proof.
  destruct o; cbn [run_op no_after comment_after]; try now repeat split.
  - apply steadfast_whole.
  - apply steadfast_whole_body.
  - apply (steadfast_bind (stream_open cd pre e) _); [apply steadfast_stream_open|intro sw].
    apply steadfast_bind; [apply steadfast_stream_body|intro].
    destruct closed; [apply steadfast_stream_close|apply steadfast_ret].
Qed.

(** ** Histories *)
Definition placed (d : bytes) (c : cd_entry) (it : item) : Prop :=
  exists a v f lx, laid_out it a v f lx /\ sits d it v f lx /\ ce_bytes c = member_record a /\ (sizes_clear it -> member_ok a).
Lemma placed_app d x c it : placed d c it -> placed (d ++ x) c it.
Proof.
  intros (a & v & f & lx & LO & (b & t & -> & B) & R). exists a, v, f, lx. split; [exact LO|]. split; [|exact R].
  exists b, (t ++ x). split; [|exact B]. now rewrite <- !app_assoc.
Qed.
(** the entries lie one behind the other, from [lo] on *)
Fixpoint spaced (d : bytes) (lo : N) (its : list item) : Prop :=
  match its with
  | [] => lo <= len d
  | it :: r => lo <= i_off it /\ exists a v f lx, laid_out it a v f lx /\ sits d it v f lx /\ spaced d (i_off it + len (item_image it v f lx)) r
  end.
Lemma spaced_from d its : forall lo lo', lo' <= lo -> spaced d lo its -> spaced d lo' its.
Proof. destruct its as [|it r]; cbn [spaced]; intros lo lo' L; [lia|]. intros [H1 H2]. split; [lia|exact H2]. Qed.
Lemma succeeded_cons no64 o r l : succeeded no64 ((o, r) :: l) =
  (if writes_entry o && worked r then [(no64, o)] else []) ++ succeeded (no_after no64 o) l.
Proof. reflexivity. Qed.
Lemma recorded_succeeded l : Forall (fun x => too_many (snd x) = false) l -> forall no64, recorded no64 l = succeeded no64 l.
Proof.
  induction 1 as [|[o r] l H _ IH]; intro no64; [reflexivity|]. cbn [snd] in H. rewrite succeeded_cons. cbn [recorded].
  now rewrite H, orb_false_r, IH.
Qed.

Record ran (cd : codec) (w w' : world) (xs : list (wop * res unit)) (cs : list cd_entry) (its : list item) : Prop := {
  ran_cds : w_cds w' = w_cds w ++ cs;
  ran_placed : Forall2 (placed (w_bytes w')) cs its;
  ran_leaves : Forall2 (fun x it => leaves cd (fst x) (snd x) it) (recorded (w_force_no w) xs) its;
  ran_no64 : Forall (fun it => i_no64 it = true -> i_big it = false /\ is_over (i_off it) = false) its;
  ran_zip64 : Forall (fun it => in64 it || off64 it = true -> w_zip64 w' = true) its;
  ran_count : w_zip64 w' = false -> succeeded (w_force_no w) xs = take (65535 - len (w_cds w)) (recorded (w_force_no w) xs);
  ran_all : Forall (fun x => too_many (snd x) = false) xs -> len (w_cds w) <= 65535 -> 65535 < len (w_cds w') -> w_zip64 w' = true;
  ran_on : w_zip64 w = true -> w_zip64 w' = true;
  ran_spaced : spaced (w_bytes w') (len (w_bytes w)) its }.

Lemma leaves_no64 cd fn o it : leaves cd fn o it -> i_no64 it = fn.
Proof. now destruct 1. Qed.
Lemma take_cons {A} n (x : A) l : 0 < n -> take n (x :: l) = x :: take (n - 1) l.
Proof. intro H. rewrite !take_firstn. replace (N.to_nat n) with (S (N.to_nat (n - 1))) by lia. reflexivity. Qed.
Lemma take_none {A} (l : list A) : take 0 l = [].
Proof. now rewrite take_firstn. Qed.

Lemma run_ops_ran cd l : enc_takes cd -> Forall op_good l -> forall w, w_offset w = len (w_bytes w) ->
  let '(xs, w') := run_ops cd l w in
  len (w_bytes w') < 0x10000000000000000 -> exists cs its, ran cd w w' xs cs its.
Proof.
  intros T GS. induction GS as [|o l G _ IH]; intros w OF; cbn [run_ops].
  { intros _. exists [], []. split; try solve [constructor]; try solve [intros; reflexivity]; try tauto.
    - now rewrite app_nil_r.
    - intros _ H H'. lia.
    - cbn [spaced]. lia. }
  pose proof (run_op_step cd o w T G OF) as S. pose proof (grows_run_op cd o w) as EV. pose proof (run_op_keeps cd o w) as K. cbv zeta in K.
  destruct (run_op cd o w) as [r w1]. cbn [snd] in EV, K. destruct K as (KF & _ & KZ).
  pose proof (evol_offset _ _ EV OF) as OF1.
  specialize (IH w1 OF1). pose proof (evol_run_ops cd l w1) as EV2. destruct (run_ops cd l w1) as [xs w2] eqn:RO. cbn [snd] in EV2.
  intro LB. specialize (IH LB). destruct IH as (cs & its & [R1 R2 R3 R4 R5 R6 R7 R8 R9]).
  destruct EV2 as ((b & EB & _) & _). rewrite EB, len_app in LB. specialize (S ltac:(lia)).
  rewrite KF in R3, R6. destruct S as [C NW TM|c it img WE C B OFF LV EL FN I64 CNT].
  - exists cs, its.
    assert (W : writes_entry o && worked r = false) by (destruct (writes_entry o); [now rewrite NW|reflexivity]).
    rewrite C in *.
    constructor; try assumption.
    + cbn [recorded]. rewrite TM, orb_false_r, W. exact R3.
    + intro Z. rewrite succeeded_cons. cbn [recorded]. rewrite TM, orb_false_r, W. cbn [app]. now apply R6.
    + intros F. inversion F; subst. now apply R7.
    + auto.
    + destruct EV as ((b1 & EB1 & _) & _). apply (spaced_from _ _ (len (w_bytes w1))); [|exact R9]. rewrite EB1, len_app. lia.
  - exists (c :: cs), (it :: its).
    assert (REC : worked r || too_many r = true).
    { destruct ((65535 <? len (w_cds w1)) && w_force_no w); destruct CNT as [-> ?]; [apply orb_true_r|reflexivity]. }
    constructor.
    + rewrite R1, C, <- app_assoc. reflexivity.
    + constructor; [|exact R2]. rewrite EB. apply placed_app. destruct EL as (a & v & f & lx & LO & -> & CB & MO).
      exists a, v, f, lx. split; [exact LO|]. split; [|auto]. exists (w_bytes w), [].
      split; [|now rewrite <- OF]. rewrite B. unfold item_image. now rewrite app_nil_r.
    + cbn [recorded]. rewrite WE, REC. cbn [andb app]. constructor; [exact LV|exact R3].
    + constructor; [|exact R4]. now rewrite (leaves_no64 _ _ _ _ LV).
    + constructor; [auto|exact R5].
    + intro Z. rewrite succeeded_cons. cbn [recorded]. rewrite WE, REC. cbn [andb].
      specialize (R6 Z). assert (LC : len (w_cds w1) = len (w_cds w) + 1) by (rewrite C, len_app; reflexivity).
      rewrite LC in *. cbn [app].
      destruct (N.ltb_spec 65535 (len (w_cds w) + 1)) as [L|L]; cbn [andb] in CNT.
      * replace (65535 - len (w_cds w)) with 0 by lia. replace (65535 - (len (w_cds w) + 1)) with 0 in R6 by lia.
        rewrite take_none in *. destruct (w_force_no w); destruct CNT as [C1 C2].
        -- now rewrite C2.
        -- specialize (R8 (C2 L)). congruence.
      * destruct CNT as [-> _]. rewrite take_cons by lia. cbn [app]. f_equal.
        replace (65535 - len (w_cds w) - 1) with (65535 - (len (w_cds w) + 1)) by lia. exact R6.
    + intros F LE GT. inversion F as [|? ? F1 F2]; subst. cbn [snd] in F1.
      destruct (N.leb_spec (len (w_cds w1)) 65535) as [L|L]; [now apply R7|].
      apply R8. replace (65535 <? len (w_cds w1)) with true in CNT by lia. cbn [andb] in CNT.
      destruct (w_force_no w); destruct CNT as [C1 C2]; [congruence|auto].
    + auto.
    + cbn [spaced]. split; [rewrite OFF, OF; lia|]. destruct EL as (a & v & f & lx & LO & -> & CB & MO). exists a, v, f, lx. split; [exact LO|]. split.
      * exists (w_bytes w), b. split; [|now rewrite OFF, OF]. rewrite EB, B. unfold item_image. now rewrite <- !app_assoc.
      * apply (spaced_from _ _ (len (w_bytes w1))); [|exact R9]. rewrite B, len_app, OFF, OF. lia.
Qed.
