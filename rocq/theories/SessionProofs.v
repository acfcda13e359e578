(** The writer's calls end as [SpecSession] says. *)
From Verif Require Import Base BaseFacts Crc32 CrcFacts ZString ZDate Headers HeadersFacts ExtraField ExtraFieldFacts Entry IO IOFacts
  Reader EntryReader Writer WriterFacts WholeFacts StreamFacts SpecFormat SpecCrc SpecUtf8 SpecArchive SpecRead SpecWrite
  WriteProofs RecordFacts HistFacts CloseFacts RoundTrip OutcomeFacts FarFiles StreamOutcome SpecSize SpecImage ImageProofs SpecSession.
Arguments N.add : simpl never.
Arguments N.sub : simpl never.

Definition view (w : world) : session :=
  {| s_bytes := w_bytes w; s_records := map ce_bytes (w_cds w); s_no64 := w_force_no w; s_is64 := w_zip64 w; s_comment := w_comment w |}.
Lemma view_moved w w' b u f : moved w w' b u f -> view w' = with_bytes (view w) b.
Proof.
  intro M. unfold view, with_bytes. cbn [s_bytes s_records s_no64 s_is64 s_comment].
  now rewrite (moved_bytes _ _ _ _ _ M), (moved_cds _ _ _ _ _ M), (moved_force _ _ _ _ _ M), (moved_zip64 _ _ _ _ _ M), (moved_comment _ _ _ _ _ M).
Qed.
Lemma view_push w c : view (push_cd w c) = with_record (view w) (ce_bytes c).
Proof. unfold view, with_record, push_cd. cbn. now rewrite map_app. Qed.
Lemma view_64 w : view (set_zip64 w true) = with_64 (view w). Proof. reflexivity. Qed.
Lemma with_bytes_app s a b : with_bytes (with_bytes s a) b = with_bytes s (a ++ b).
Proof. unfold with_bytes. cbn. now rewrite <- app_assoc. Qed.
Lemma with_bytes_nil s : with_bytes s [] = s.
Proof. unfold with_bytes. rewrite app_nil_r. now destruct s. Qed.

(** the counters hold: what is there in the end, or what is there and what comes *)
Definition fits (w w' : world) (z : bytes) : Prop :=
  len (w_bytes w') < 0x10000000000000000 \/ (len (w_bytes w) < 0x10000000000000000 /\ len z < 0x10000000000000000).

(** ** Extra fields *)
Lemma local_lx it f lx : texts (en_filename (i_entry it)) (en_comment (i_entry it)) f (en_extra (i_entry it) ++ local_zip64 it) lx ->
  f = plain_entry (i_entry it) /\ lx = local_fields it.
Proof. intro T. exact (texts_put _ _ _ _ T). Qed.
Lemma all_local it : all_zip64 (local_zip64 it).
Proof. unfold all_zip64. destruct (in_local64 it) as [[-> _]|(z & -> & _)]; [auto|eauto]. Qed.
Definition grown (it : item) : N :=
  if i_stream it then if i_no64 it then 0 else 8 else if negb (i_big it) && is_over (i_off it) then 12 else 0.
Lemma central_len it f lx : Forall plain_field (en_extra (i_entry it)) ->
  texts (en_filename (i_entry it)) (en_comment (i_entry it)) f (en_extra (i_entry it) ++ local_zip64 it) lx ->
  len (spec_extras (central_fields it)) = len (spec_extras lx) + grown it.
Proof.
  intros P T. destruct (texts_split _ _ _ _ _ lx (all_local it) P T) as (b & a & E & Pb & Pa).
  apply local_lx in T as [_ T]. unfold central_fields. rewrite <- T, E, !map_app, (no64_same _ b (plain_is64 _ Pb)), (no64_same _ a (plain_is64 _ Pa)).
  unfold grown, local_zip64, central_zip64, in64, off64. rewrite !AllWork.spec_extras_app, !len_app.
  destruct (i_stream it).
  - destruct (i_no64 it); cbn; lia.
  - destruct (i_big it), (is_over (i_off it)); cbn; lia.
Qed.

(** ** Entries written whole *)
Section Whole.
  Variables (fn : bool) (e : zentry) (u c : N) (d : bytes) (off : N).
  Let it := whole_item fn e u c d off.
  Let e' := measured e u c.
  Let e3 := wh_e3 e' d off.
  Hypothesis EF : entry_fine e.
  Lemma wh_texts : texts (en_filename e) (en_comment e) (utf8_flag e) (en_extra e ++ local_zip64 it) (en_extra e3).
  Proof. destruct (wh_e3_facts fn e u c d off) as (_ & _ & _ & _ & _ & _ & _ & _ & _ & _ & T). exact T. Qed.
  Lemma wh_lx : en_extra e3 = local_fields it.
  Proof. exact (proj2 (local_lx it _ _ wh_texts)). Qed.
  Lemma wh_flag : utf8_flag e = plain_entry e.
  Proof. exact (proj1 (local_lx it _ _ wh_texts)). Qed.
  Lemma wh_len : fields_count_bytes (en_extra e3) = len (spec_extras (local_fields it)).
  Proof.
    rewrite <- wh_lx. apply count_len. eapply texts_no_disk; [exact wh_texts|]. apply Forall_app. split; [apply plain_no_disks; apply EF|apply local_no_disk].
  Qed.
  Lemma wh_refused_is : wh_refused e' d off =
    if too_long (spec_extras (local_fields it)) then Some ExtraFieldTooLarge else if too_long (i_name it) then Some FileNameTooLarge
    else if too_long (i_comment it) then Some CommentTooLarge else None.
  Proof.
    destruct (wh_e3_facts fn e u c d off) as (F1 & F2 & _). unfold wh_refused. cbv zeta. fold e' e3 in F1, F2 |- *. rewrite wh_len, F1, F2, !ltb_negb. reflexivity.
  Qed.
  Lemma wh_len4 : fields_count_bytes (en_extra (wh_e4 e' d off)) = len (spec_extras (central_fields it)).
  Proof.
    rewrite (central_len it _ _ (proj2 EF) wh_texts). unfold grown. cbn [i_stream it whole_item]. unfold wh_e4. cbv zeta. fold e3.
    change (late e' d off) with (negb (i_big it) && is_over (i_off it)). pose proof wh_len as W. rewrite wh_lx in W |- *. rewrite <- W.
    destruct (negb (i_big it) && is_over (i_off it)); [|rewrite N.add_0_r, ?wh_lx; reflexivity]. unfold set_extra at 1. cbn [en_extra]. rewrite fields_count_app, ?wh_lx. reflexivity.
  Qed.
  Hypothesis Hu : u < 0x10000000000000000.
  Hypothesis Hd : len d < 0x10000000000000000.
  Hypothesis Ho : off < 0x10000000000000000.
  Lemma wh_head : wh_refused e' d off = None -> head_bytes (wh_lfh e' d off) e3 = local_bytes it.
  Proof.
    intro R. pose proof (wh_e3_facts fn e u c d off) as F. cbv zeta in F. fold it e' e3 in F.
    destruct F as (Fn & Fc & Fm & Fd & Fr & Fi & Fe & Fu & Fs & Ff & T).
    assert (ZZ : Forall zip64_ok (local_zip64 it)).
    { unfold local_zip64, it. cbn [i_stream whole_item]. destruct (i_big _); [|constructor]. constructor; [|constructor].
      cbn. unfold zip64_wt. cbn. destruct (is_over off); cbn; repeat match goal with |- _ /\ _ => split end; easy. }
    destruct (texts_split _ _ _ _ _ _ (all_local it) (proj2 EF) T) as (b & a & E & Pb & Pa).
    destruct (sandwich_ok b (local_zip64 it) a Pb ZZ Pa) as [W1 W2]. rewrite <- E in W1, W2.
    assert (R1 : fields_count_bytes (en_extra e3) < 65536).
    { unfold wh_refused in R. cbv zeta in R. fold e3 in R. destruct (N.ltb_spec (fields_count_bytes (en_extra e3)) 65536); [assumption|discriminate]. }
    destruct (image_ok _ W1 W2 R1) as [I1 I2].
    pose proof (needs_same e3 e _ Fn Fm (RecordFacts.needs_version e3)) as NV. apply ImageProofs.needs_version in NV.
    rewrite head_bytes_eq. unfold wh_lfh. cbv zeta. fold e3. unfold make_lfh. cbn [l_version l_flags l_compression l_mod_time l_mod_date l_crc
      l_compressed_size l_uncompressed_size l_file_name_length l_extra_field_length flags_of gp_encrypted gp_data_descriptor gp_filename_unicode].
    unfold local_bytes, local_image. cbv zeta. change (i_stream it) with false. change (i_entry it) with e. cbv iota. change (i_crc it) with c.
    rewrite <- wh_lx, Fn, Fm, Fd, Fr, Ff, wh_flag, I1, I2, NV, Fu, Fs. unfold i_name. change (i_entry it) with e. change (i_usize it) with u. change (i_csize it) with (len d).
    destruct (i_big it) eqn:B; [reflexivity|]. apply orb_false_iff in B as [B1 B2].
    change (is_over u = false) in B1. change (is_over (len d) = false) in B2. rewrite !as_u32_small by now apply is_over_false. reflexivity.
  Qed.
End Whole.

Lemma recorded_push fn c it w : fn = w_force_no w -> ce_bytes c = record_bytes it ->
  let '(r, w') := push_and_check fn c w in recorded_in (view w) it = (r, view w').
Proof.
  intros -> E. rewrite push_and_check_eq. cbv zeta. unfold recorded_in. rewrite <- E, <- view_push. change NON_ZIP64_MAX_NUM_FILES with 65535.
  assert (L : len (s_records (view (push_cd w c))) = len (w_cds (push_cd w c))) by (unfold view, len; cbn [s_records]; now rewrite map_length). rewrite L.
  change (s_no64 (view (push_cd w c))) with (w_force_no w). destruct (65535 <? _); [destruct (w_force_no w)|]; reflexivity.
Qed.

Lemma whole_session e u c d w : entry_fine e -> u < 0x10000000000000000 -> c < 0x100000000 -> w_sched w = [] -> w_offset w = len (w_bytes w) ->
  let '(r, w') := whole_write_body (measured e u c) d w in
  fits w w' d -> whole_ends (view w) (whole_item (w_force_no w) e u c d (w_offset w)) = (r, view w').
Proof.
  intros EF Hu Hc SC OF. rewrite whole_body_eq. cbv zeta. set (e' := measured e u c). set (off := w_offset w) in *.
  set (fn := w_force_no w). set (it := whole_item fn e u c d off). unfold whole_ends. change (s_no64 (view w)) with fn.
  change (wh_big e' d) with (i_big it). change (over off) with (is_over (i_off it)).
  destruct ((i_big it || is_over (i_off it)) && fn) eqn:FB; [reflexivity|].
  assert (WV : view (wh_world e' d w) = if i_big it || is_over (i_off it) then with_64 (view w) else view w).
  { unfold wh_world. change (wh_big e' d) with (i_big it). change (over (w_offset w)) with (is_over (i_off it)). now destruct (_ || _). }
  rewrite <- WV. pose proof (wh_refused_is fn e u c d off EF) as RI. fold it e' in RI.
  destruct (too_long (spec_extras (local_fields it))); [rewrite RI; reflexivity|]. destruct (too_long (i_name it)); [rewrite RI; reflexivity|].
  destruct (too_long (i_comment it)); [rewrite RI; reflexivity|]. rewrite RI.
  assert (CS : w_sched (wh_world e' d w) = []) by (unfold wh_world; now destruct (_ || _)).
  assert (FW : w_force_no (wh_world e' d w) = fn) by (unfold wh_world; now destruct (_ || _)).
  unfold bind. pose proof (puts_ok (head_writes (wh_lfh e' d off) (wh_e3 e' d off) ++ [d]) (wh_world e' d w)) as P. unfold put_ok in P.
  destruct (puts _ (wh_world e' d w)) as [[x|x|p] w1]; cbn [fst snd] in P; destruct P as (us & P); [| |easy].
  2:{ exfalso. destruct P as (io & p & _ & _ & M & Fa). destruct (calm_moved _ _ _ _ _ CS M) as [-> _]. exact (calm_faulty _ Fa). }
  destruct P as [M _]. pose proof (view_moved _ _ _ _ _ M) as V1. pose proof (moved_force _ _ _ _ _ M) as F1. rewrite FW in F1.
  rewrite concat_app in V1. cbn [concat] in V1. rewrite app_nil_r in V1. fold (head_bytes (wh_lfh e' d off) (wh_e3 e' d off)) in V1.
  pose proof (wh_len4 fn e u c d off EF) as L4. fold it e' in L4. rewrite L4.
  assert (HB : len d < 0x10000000000000000 -> off < 0x10000000000000000 -> with_bytes (view (wh_world e' d w)) (entry_bytes it) = view w1).
  { intros LD LO. rewrite V1. unfold e'. rewrite (wh_head fn e u c d off EF Hu LD LO RI). unfold entry_bytes, local_bytes. change (descriptor_image it) with (@nil byte). now rewrite app_nil_r. }
  assert (FIT : fits w w1 d -> len d < 0x10000000000000000 /\ off < 0x10000000000000000).
  { assert (WB : w_bytes (wh_world e' d w) = w_bytes w) by (unfold wh_world; now destruct (_ || _)).
    unfold fits. rewrite (moved_bytes _ _ _ _ _ M), WB, concat_app, !len_app, OF. cbn [concat]. rewrite app_nil_r. lia. }
  assert (TL : too_long (spec_extras (central_fields it)) = negb (len (spec_extras (central_fields it)) <? 65536)) by (unfold too_long; now rewrite ltb_negb).
  rewrite TL. destruct (N.ltb_spec (len (spec_extras (central_fields it))) 65536) as [L|L]; cbn [negb].
  { pose proof (push_step fn (wh_cd e' d off) w1) as PS. pose proof (recorded_push fn (wh_cd e' d off) it w1 (eq_sym F1)) as RP.
    destruct (push_and_check fn (wh_cd e' d off) w1) as [r w2]. destruct PS as (_ & B2 & _). unfold fits. rewrite B2. intros LB. destruct (FIT LB) as [LD LO].
    rewrite HB by assumption. apply RP.
    destruct (whole_laid fn e u c d off EF Hu Hc LD LO RI ltac:(fold it e'; rewrite L4; exact L)) as (a & v & f & lx & LOUT & _ & CB & _).
    fold it e' in LOUT, CB. rewrite CB. now apply (laid_image _ _ _ _ _ LOUT (proj2 EF)). }
  intros LB. destruct (FIT LB) as [LD LO]. now rewrite HB.
Qed.

(** ** The data *)
Definition data_of (cd : codec) (o : wop) : bytes :=
  match o with
  | OpWhole e d => match en_compression e with Stored => d | c => match compress cd c (en_level e) d with Ok z => z | _ => [] end end
  | OpWholePre _ z => z
  | OpStream pre e body closed =>
    match new_enc cd pre (en_compression e) with
    | Ok enc => let '(out, enc') := feed_ops enc body in if closed then out ++ concat (fin_writes enc') else out
    | _ => []
    end
  | _ => []
  end.
Lemma data_stores cd : enc_takes cd -> forall o, stores cd o (data_of cd o).
Proof.
  intros T [| |c|e d|e d|pre e body closed]; try exact I; cbn [stores data_of]; [|reflexivity|].
  - destruct (en_compression e) eqn:CE; [right; now constructor| |now left|..]; right;
      (destruct (compress cd _ (en_level e) d) as [z|x|p] eqn:CZ;
       [eapply compress_compressed; eassumption|exact (False_ind _ (compress_no_err _ _ _ _ _ CZ))|exfalso; eapply (compress_no_panic cd); [exact T| | |exact CZ]; discriminate]).
  - destruct pre; [cbn [new_enc]; rewrite feed_ops_none; destruct closed; cbn [fin_writes concat]; now rewrite ?app_nil_r|].
    unfold new_enc. destruct (en_compression e) eqn:CE;
      [|pose proof (feed_ops_runs cd T body (enc_init cd Deflate LDefault)) as FR| |pose proof (feed_ops_runs cd T body (enc_init cd Bz LDefault)) as FR
      |pose proof (feed_ops_runs cd T body (enc_init cd Lzma LDefault)) as FR|pose proof (feed_ops_runs cd T body (enc_init cd Zstd LDefault)) as FR
      |pose proof (feed_ops_runs cd T body (enc_init cd Xz LDefault)) as FR].
    { rewrite feed_ops_none. destruct closed; right; cbn [fin_writes concat]; rewrite ?app_nil_r; now constructor. }
    2:{ destruct closed; now left. }
    all: destruct (feed_ops _ body) as [out enc']; destruct FR as (st & -> & FR); destruct closed; right; cbn [fin_writes concat]; rewrite ?app_nil_r;
      first [eapply comp_encoded | eapply far_encoded]; solve [discriminate|exact FR].
Qed.

(** ** Entries written as streams *)
Lemma no_encoder_iff e : no_encoder e = true <-> en_compression e = Deflate64.
Proof. unfold no_encoder. now destruct (en_compression e). Qed.
Lemma stream_head pre fn e content z off : entry_fine e -> fn && so_big e = false -> so_refused fn e = None ->
  head_bytes (so_lfh fn e) (so_e3 fn e) = local_bytes (stream_item fn e (sw_usize pre e content) (sw_crc pre e content) z off).
Proof.
  intros EF SB R. set (it := stream_item fn e (sw_usize pre e content) (sw_crc pre e content) z off).
  rewrite (so_head pre fn e content z off EF SB R). fold it. pose proof (so_texts pre fn e content z off) as T. fold it in T.
  destruct (local_lx it _ _ T) as [E1 E2]. change (i_entry it) with e in E1. unfold local_bytes. change (i_entry it) with e. rewrite <- E1, <- E2.
  destruct (so_e3_facts fn e (sw_usize pre e content) (sw_crc pre e content) z off) as (Fn & _ & Fm & _).
  now rewrite (ImageProofs.needs_version e _ (needs_same _ _ _ Fn Fm (RecordFacts.needs_version (so_e3 fn e)))).
Qed.
Lemma stream_item_is s pre e body closed z : item_for s (OpStream pre e body closed) z =
  stream_item (s_no64 s) e (sw_usize pre e (fed_bytes body)) (sw_crc pre e (fed_bytes body)) z (len (s_bytes s)).
Proof. now destruct pre. Qed.

Lemma stream_session cd pre e body closed w : enc_takes cd -> entry_fine e -> len (fed_bytes body) < 0x10000000000000000 -> w_sched w = [] -> w_offset w = len (w_bytes w) ->
  let o := OpStream pre e body closed in
  let '(r, w') := run_op cd o w in
  fits w w' (data_of cd o) -> call_ends (data_of cd) (view w) o = (r, view w').
Proof.
  intros T EF HC SC OF. cbv zeta. cbn [run_op call_ends]. rewrite stream_item_is. change (s_no64 (view w)) with (w_force_no w). change (s_bytes (view w)) with (w_bytes w). rewrite <- OF.
  pose proof (stream_open_spec cd pre e w) as O. cbv zeta in O.
  set (fn := w_force_no w) in *. unfold bind at 1. set (off := w_offset w) in *. set (z := data_of cd (OpStream pre e body closed)).
  set (it := stream_item fn e (sw_usize pre e (fed_bytes body)) (sw_crc pre e (fed_bytes body)) z off).
  assert (WV : view (so_world w) = if fn then view w else with_64 (view w)) by (unfold so_world, fn; now destruct (w_force_no w)).
  assert (CS : w_sched (so_world w) = []) by (unfold so_world; now destruct (w_force_no w)).
  assert (WB : w_bytes (so_world w) = w_bytes w) by (unfold so_world; now destruct (w_force_no w)).
  unfold stream_ends. change (i_entry it) with e. change (s_no64 (view w)) with fn.
  change (is_over (en_compressed_size e) || is_over (en_uncompressed_size e)) with (so_big e).
  destruct (stream_open cd pre e w) as [r w1].
  destruct (fn && so_big e) eqn:SB; [destruct O as [-> ->]; reflexivity|].
  rewrite <- WV.
  pose proof (so_refused_is pre fn e (fed_bytes body) z off EF) as RI. fold it in RI.
  pose proof (so_texts pre fn e (fed_bytes body) z off) as TX. fold it in TX. destruct (local_lx it _ _ TX) as [_ LX].
  rewrite LX in RI. unfold too_long at 1 2. rewrite RI in O.
  destruct (65535 <? len (spec_extras (local_fields it))) eqn:X1; [destruct O as [-> ->]; reflexivity|].
  destruct (65535 <? len (i_name it)) eqn:X2; [destruct O as [-> ->]; reflexivity|].
  pose proof (stream_head pre fn e (fed_bytes body) z off EF SB RI) as HB. fold it in HB. rewrite HB in O.
  assert (NE : match r with Ok sw => negb pre && no_encoder e = false | Panic _ => negb pre && no_encoder e = true | _ => True end).
  { destruct r as [sw|x|p]; [|exact I|]; destruct O as (us & O).
    - destruct O as (_ & _ & enc & NE & _). unfold new_enc in NE. unfold no_encoder. destruct pre; [reflexivity|]. destruct (en_compression e); try reflexivity. discriminate.
    - destruct O as (_ & -> & D & _). now apply no_encoder_iff in D. }
  destruct O as (us & O). destruct r as [sw0|x|p].
  2:{ exfalso. destruct O as (io & p & _ & _ & M & Fa). destruct (calm_moved _ _ _ _ _ CS M) as [-> _]. exact (calm_faulty _ Fa). }
  2:{ rewrite NE. destruct O as (-> & _ & _ & M). intros _. now rewrite (view_moved _ _ _ _ _ M). }
  rewrite NE. destruct O as (M1 & _ & enc & NW & ->). destruct (calm_moved _ _ _ _ _ CS M1) as [_ C1].
  set (head := local_bytes it) in *. set (doff := off + len head) in *.
  assert (SO : so_refused fn e = None) by exact RI. destruct (so_count _ _ SO) as [SN _].
  pose proof (moved_offset _ _ _ _ _ M1) as MO1. replace (w_offset (so_world w)) with off in MO1 by (unfold so_world; now destruct (w_force_no w)).
  pose proof (moved_force _ _ _ _ _ M1) as MF1. replace (w_force_no (so_world w)) with fn in MF1 by (unfold so_world, fn; destruct (w_force_no w) eqn:E; cbn; now rewrite ?E).
  pose proof (moved_bytes _ _ _ _ _ M1) as MB1. rewrite WB in MB1.
  assert (ZD : z = let '(out, enc') := feed_ops enc body in if closed then out ++ concat (fin_writes enc') else out) by (unfold z; cbn [data_of]; now rewrite NW).
  destruct (feed_ops enc body) as [out enc'] eqn:FO.
  pose proof (stream_body_ok body T (opened pre fn e off doff enc) w1) as B. cbn [sw_enc opened] in B. rewrite FO in B.
  unfold bind at 1. unfold fed_ok in B.
  destruct (stream_body (opened pre fn e off doff enc) body w1) as [[sw2|x|p] w2]; cbn [fst snd] in B; destruct B as (u2 & B); [| |easy].
  2:{ exfalso. destruct B as (io & p & f & _ & _ & M & Fa). destruct (calm_moved _ _ _ _ _ C1 M) as [-> _]. exact (calm_faulty _ Fa). }
  destruct B as (nf & M2 & ->). rewrite content_fed. destruct (calm_moved _ _ _ _ _ C1 M2) as [_ C2].
  pose proof (view_moved _ _ _ _ _ M2) as V2. rewrite (view_moved _ _ _ _ _ M1), with_bytes_app in V2.
  pose proof (moved_offset _ _ _ _ _ M2) as MO2. pose proof (moved_force _ _ _ _ _ M2) as MF2. rewrite MO1 in MO2. rewrite MF1 in MF2.
  pose proof (moved_bytes _ _ _ _ _ M2) as MB2. rewrite MB1 in MB2.
  change (i_data it) with z. destruct closed; cbn [negb].
  2:{ intros _. cbn [ret]. now rewrite V2, ZD. }
  set (sw := fed (opened pre fn e off doff enc) (fed_bytes body) enc').
  rewrite stream_close_eq; [|exact SN|reflexivity]. change (sw_enc sw) with enc'.
  unfold bind. pose proof (puts_ok (fin_writes enc') w2) as P. unfold put_ok in P.
  destruct (puts (fin_writes enc') w2) as [[x|x|p] w3]; cbn [fst snd] in P; destruct P as (u3 & P); [| |easy].
  2:{ exfalso. destruct P as (io & p & _ & _ & M & Fa). destruct (calm_moved _ _ _ _ _ C2 M) as [-> _]. exact (calm_faulty _ Fa). }
  destruct P as [M3 _]. destruct (calm_moved _ _ _ _ _ C2 M3) as [_ C3].
  pose proof (view_moved _ _ _ _ _ M3) as V3. rewrite V2, with_bytes_app, <- app_assoc, <- ZD in V3.
  pose proof (moved_offset _ _ _ _ _ M3) as MO3. pose proof (moved_force _ _ _ _ _ M3) as MF3. rewrite MO2 in MO3. rewrite MF2 in MF3.
  pose proof (moved_bytes _ _ _ _ _ M3) as MB3. rewrite MB2 in MB3.
  assert (CZ : w_offset w3 - doff = len z) by (unfold doff; rewrite MO3, ZD, len_app; lia).
  rewrite <- V3. change (s_no64 (view w3)) with (w_force_no w3). rewrite MF3.
  unfold close_rest. cbv zeta. change (sw_data_offset sw) with doff. change (sw_force_no sw) with fn. rewrite CZ.
  pose proof (sc_big_is pre fn e (fed_bytes body) z off doff enc enc') as BI. fold sw it in BI.
  pose proof (sc_len pre fn e (fed_bytes body) z off EF doff enc enc') as LI. fold sw in LI. rewrite LX in LI.
  pose proof (sc_desc_is pre fn e (fed_bytes body) z off doff enc enc') as DI. fold sw it in DI.
  destruct (fn && sc_big sw (len z)) eqn:BG; rewrite BI in BG; rewrite BG; [reflexivity|].
  specialize (DI eq_refl). assert (CL : len (spec_extras (central_fields it)) = fields_count_bytes (en_extra (sc_e2 sw (len z)))).
  { rewrite (central_len it _ _ (proj2 EF) TX), LX, LI. reflexivity. }
  unfold too_long at 1. rewrite CL, <- ltb_negb.
  destruct (N.ltb_spec (fields_count_bytes (en_extra (sc_e2 sw (len z)))) 65536) as [L2|L2]; cbn [negb]; [|reflexivity].
  unfold bind. pose proof (puts_ok (sc_descriptor sw (len z)) w3) as P. unfold put_ok in P.
  destruct (puts (sc_descriptor sw (len z)) w3) as [[y|y|p] w4]; cbn [fst snd] in P; destruct P as (u4 & P); [| |easy].
  2:{ exfalso. destruct P as (io & p & _ & _ & M & Fa). destruct (calm_moved _ _ _ _ _ C3 M) as [-> _]. exact (calm_faulty _ Fa). }
  destruct P as [M4 _]. pose proof (view_moved _ _ _ _ _ M4) as V4. rewrite DI in V4. rewrite <- V4.
  pose proof (moved_force _ _ _ _ _ M4) as MF4. rewrite MF3 in MF4. pose proof (moved_bytes _ _ _ _ _ M4) as MB4. rewrite MB3 in MB4.
  change (en_comment (sw_entry sw)) with (en_comment (so_e3 fn e)). rewrite (proj2 (so_name pre fn e (fed_bytes body) z off)).
  change (basic_bytes (en_comment e)) with (i_comment it). unfold too_long. rewrite <- ltb_negb.
  destruct (N.ltb_spec (len (i_comment it)) 65536) as [LC|LC]; cbn [negb]; [|unfold fail, lift; intros _; reflexivity].
  pose proof (push_step fn (sc_cd sw (len z)) w4) as PS. pose proof (recorded_push fn (sc_cd sw (len z)) it w4 (eq_sym MF4)) as RP.
  destruct (push_and_check fn (sc_cd sw (len z)) w4) as [r w5]. destruct PS as (_ & B5 & _). intros LB. apply RP.
  assert (LZ : len z < 0x10000000000000000 /\ off < 0x10000000000000000).
  { unfold fits in LB. fold z in LB. rewrite B5, MB4, !len_app in LB. destruct LB as [LB|LB]; [|now split; [|rewrite OF]]. rewrite ZD, len_app. lia. }
  destruct LZ as [LZ LO].
  rewrite <- BI in BG.
  assert (LC2 : len (basic_bytes (en_comment (sw_entry sw))) < 65536).
  { change (en_comment (sw_entry sw)) with (en_comment (so_e3 fn e)). rewrite (proj2 (so_name pre fn e (fed_bytes body) z off)). exact LC. }
  destruct (stream_laid pre fn e off doff enc (fed_bytes body) enc' z EF HC LZ LO SB SO BG L2 LC2) as (a & v & f & lx & LOUT & _ & _ & CB & _).
  fold sw in CB. rewrite CB. now apply (laid_image _ _ _ _ _ LOUT (proj2 EF)).
Qed.

(** ** Any call, any session *)
Lemma run_op_session cd o w : enc_takes cd -> op_good o -> w_sched w = [] -> w_offset w = len (w_bytes w) ->
  let '(r, w') := run_op cd o w in
  fits w w' (data_of cd o) -> call_ends (data_of cd) (view w) o = (r, view w').
Proof.
  intros T (EF & SZ) SC OF. destruct o as [| |cm|e d|e d|pre e body closed]; try (cbn [run_op]; unfold modify; intros _; reflexivity).
  - cbn [run_op]. unfold write_entry_whole. cbv zeta. fold (measured e (len d) (crc32 d)). cbn in EF, SZ. cbn [call_ends data_of].
    replace (en_compression (measured e (len d) (crc32 d))) with (en_compression e) by reflexivity. replace (en_level (measured e (len d) (crc32 d))) with (en_level e) by reflexivity.
    assert (G : forall z, let '(r, w') := whole_write_body (measured e (len d) (crc32 d)) z w in
      fits w w' z -> whole_ends (view w) (item_for (view w) (OpWhole e d) z) = (r, view w')).
    { intro z. pose proof (whole_session e (len d) (crc32 d) z w EF SZ (crc32_bound d) SC OF) as H.
      replace (item_for (view w) (OpWhole e d) z) with (whole_item (w_force_no w) e (len d) (crc32 d) z (w_offset w)); [exact H|].
      rewrite OF, crc32_is_spec. reflexivity. }
    unfold no_encoder. destruct (en_compression e) eqn:CE; [apply G| |intros _; reflexivity|..];
      (unfold bind, lift; destruct (compress cd _ (en_level e) d) as [z|x|p] eqn:CZ;
       [apply G|exact (False_ind _ (compress_no_err _ _ _ _ _ CZ))|exfalso; eapply (compress_no_panic cd); [exact T| | |exact CZ]; discriminate]).
  - cbn [run_op call_ends data_of]. unfold write_entry_whole_precompressed. cbn in EF. pose proof EF as [(D1 & D2 & D3 & D4 & _) _].
    pose proof (whole_session e (en_uncompressed_size e) (en_crc32 e) d w EF D4 D3 SC OF) as H. rewrite measured_self in H.
    replace (item_for (view w) (OpWholePre e d) d) with (whole_item (w_force_no w) e (en_uncompressed_size e) (en_crc32 e) d (w_offset w)); [exact H|].
    rewrite OF. reflexivity.
  - now apply stream_session.
Qed.
Lemma calm_after cd o w : w_sched w = [] -> w_sched (snd (run_op cd o w)) = [].
Proof. intro SC. destruct (grows_run_op cd o w) as (_ & _ & _ & (u & U)). rewrite SC in U. symmetry in U. now apply app_eq_nil in U. Qed.
Lemma bytes_after cd l w : len (w_bytes w) <= len (w_bytes (snd (run_ops cd l w))).
Proof. destruct (evol_run_ops cd l w) as ((b & -> & _) & _). rewrite len_app. lia. Qed.
Lemma run_ops_session cd l : enc_takes cd -> Forall op_good l -> forall w, w_sched w = [] -> w_offset w = len (w_bytes w) ->
  let '(xs, w') := run_ops cd l w in
  len (w_bytes w') < 0x10000000000000000 -> calls_end (data_of cd) (view w) l = (xs, view w') /\ w_sched w' = [] /\ w_offset w' = len (w_bytes w').
Proof.
  intros T G. induction G as [|o l G _ IH]; intros w SC OF; cbn [run_ops calls_end]; [now split|].
  pose proof (run_op_session cd o w T G SC OF) as S. pose proof (calm_after cd o w SC) as SC1. pose proof (evol_offset _ _ (grows_run_op cd o w) OF) as OF1.
  destruct (run_op cd o w) as [r w1]. cbn [snd] in SC1, OF1. specialize (IH w1 SC1 OF1). pose proof (bytes_after cd l w1) as LE.
  destruct (run_ops cd l w1) as [xs w2]. cbn [snd] in LE. intro LB. destruct (IH LB) as (E & SO). rewrite (S ltac:(left; lia)), E. now split.
Qed.
Lemma close_session w : cds_short w -> w_sched w = [] -> w_offset w = len (w_bytes w) ->
  let '(r, w') := zw_close w in close_ends (view w) = (r, w_bytes w').
Proof.
  intros S SC OF. unfold close_ends. cbv zeta. change (s_bytes (view w)) with (w_bytes w). change (s_records (view w)) with (map ce_bytes (w_cds w)).
  change (s_no64 (view w)) with (w_force_no w). change (s_is64 (view w)) with (w_zip64 w). change (s_comment (view w)) with (w_comment w).
  assert (L : len (map ce_bytes (w_cds w)) = len (w_cds w)) by (unfold len; now rewrite map_length). rewrite L, <- OF.
  destruct (is_over (w_offset w) && w_force_no w) eqn:FF.
  - apply andb_true_iff in FF as [OV FN]. unfold zw_close. unfold bind at 1. unfold get at 1. cbv beta iota zeta.
    destruct (RepeatFacts.cd_entries_calm _ S w SC) as (w1 & E & S1 & O1 & F1 & Z1). pose proof (cd_entries_ok _ S _ _ _ E) as (u & M).
    unfold bind at 1. rewrite E. unfold bind at 1. unfold get at 1. cbv beta iota zeta.
    change (NON_ZIP64_MAX_SIZE <? w_offset w) with (is_over (w_offset w)). rewrite OV, F1, FN. unfold bind, fail, lift. now rewrite (moved_bytes _ _ _ _ _ M).
  - pose proof (RepeatFacts.close_calm w S SC FF) as C. destruct (zw_close w) as [r w'] eqn:E. cbn [fst] in C. subst r.
    apply (close_ok _ _ _ S) in E as (E & _). now rewrite E.
Qed.
Lemma bytes_close w : len (w_bytes w) <= len (w_bytes (snd (zw_close w))).
Proof. destruct (grows_close w) as ((b & -> & _) & _). rewrite len_app. lia. Qed.
Lemma archive_session cd sched l : enc_takes cd -> obliging sched -> Forall op_good l ->
  let '(xs, r, w) := run_archive cd sched l in
  len (w_bytes w) < 0x10000000000000000 -> session_ends (data_of cd) l = (xs, r, w_bytes w).
Proof.
  intros T OB G. pose proof (run_archive_calm cd sched l OB) as CALM. destruct (run_archive cd sched l) as [[xs r] w]. unfold run_archive in CALM.
  pose proof (run_ops_session cd l T G (zw_new []) eq_refl eq_refl) as RS. pose proof (cds_short_run_ops cd l T (zw_new []) ltac:(constructor)) as S.
  destruct (run_ops cd l (zw_new [])) as [xs0 w0]. cbn [snd] in S. pose proof (bytes_close w0) as LE. pose proof (close_session w0 S) as CS.
  destruct (zw_close w0) as [r0 w1]. cbn [snd] in LE. destruct CALM as (-> & -> & ->). intro LB. destruct (RS ltac:(lia)) as (E & SC & OF). specialize (CS SC OF).
  unfold session_ends. change (view (zw_new [])) with fresh in E. now rewrite E, CS.
Qed.

(** ** Sinks with faults *)
Lemma view_calm w : view (calmw w) = view w. Proof. reflexivity. Qed.
Lemma run_ops_any cd l : enc_takes cd -> Forall op_good l -> forall w, w_offset w = len (w_bytes w) ->
  let '(xs, w') := run_ops cd l w in
  Forall (fun x => says_no_upstream (snd x)) xs -> len (w_bytes w') < 0x10000000000000000 ->
  calls_end (data_of cd) (view w) l = (xs, view w') /\ w_offset w' = len (w_bytes w').
Proof.
  intros T G. induction G as [|o l G _ IH]; intros w OF; cbn [run_ops calls_end]; [now split|].
  pose proof (wsim_run_op cd o w) as SIM. unfold sim_at in SIM.
  pose proof (run_op_session cd o (calmw w) T G eq_refl OF) as S. pose proof (evol_offset _ _ (grows_run_op cd o w) OF) as OF1.
  destruct (run_op cd o w) as [r w1]. destruct (run_op cd o (calmw w)) as [r0 w0]. cbn [snd] in OF1. specialize (IH w1 OF1). pose proof (bytes_after cd l w1) as LE.
  destruct (run_ops cd l w1) as [xs w2]. cbn [snd] in LE. intros NU LB. inversion NU as [|x y NU1 NU2]; subst. cbn [snd] in NU1.
  destruct SIM as (_ & _ & u & _ & [(<- & <- & _)|(io & -> & _)]); [|now elim (NU1 io)].
  destruct (IH NU2 LB) as [E O2]. rewrite !view_calm in S. rewrite S by (left; change (len (w_bytes w1) < 0x10000000000000000); lia). now rewrite E.
Qed.
Lemma any_sink cd sched l o : enc_takes cd -> Forall op_good l -> op_good o ->
  let '(xs, w1) := run_ops cd l (zw_new sched) in
  let '(r, w2) := run_op cd o w1 in
  let '(rs, s) := calls_end (data_of cd) fresh l in
  let '(r', s') := call_ends (data_of cd) s o in
  Forall (fun x => says_no_upstream (snd x)) xs -> len (w_bytes w1) < 0x10000000000000000 -> len (data_of cd o) < 0x10000000000000000 ->
  xs = rs /\ w_bytes w1 = s_bytes s /\
  (r = r' /\ w_bytes w2 = s_bytes s' \/ (exists io, r = Err (UpstreamReadError io)) /\ prefix_of (s_bytes s) (w_bytes w2) /\ prefix_of (w_bytes w2) (s_bytes s')).
Proof.
  intros T G GO. pose proof (run_ops_any cd l T G (zw_new sched) eq_refl) as A. destruct (run_ops cd l (zw_new sched)) as [xs w1].
  pose proof (wsim_run_op cd o w1) as SIM. unfold sim_at in SIM. pose proof (run_op_session cd o (calmw w1) T GO eq_refl) as S.
  pose proof (grows_run_op cd o w1) as ((b & EB & _) & _). destruct (run_op cd o w1) as [r w2]. destruct (run_op cd o (calmw w1)) as [r0 w0]. cbn [snd] in EB.
  change (view (zw_new sched)) with fresh in A.
  destruct (calls_end (data_of cd) fresh l) as [rs s] eqn:CE. destruct (call_ends (data_of cd) s o) as [r' s'] eqn:CO. intros NU LB LD.
  destruct (A NU LB) as [E OF]. injection E as <- ->. split; [reflexivity|]. split; [reflexivity|]. rewrite view_calm, CO in S.
  specialize (S OF ltac:(right; split; [exact LB|exact LD])). injection S as -> ->.
  destruct SIM as (_ & _ & u & _ & [(-> & E & _)|(io & -> & _ & P)]).
  - left. split; [reflexivity|]. rewrite <- E. reflexivity.
  - right. split; [now exists io|]. split; [exists b; exact EB|]. exact P.
Qed.
Lemma any_close cd sched l : enc_takes cd -> Forall op_good l ->
  let '(xs, r, w) := run_archive cd sched l in
  let '(rs, r', b) := session_ends (data_of cd) l in
  Forall (fun x => says_no_upstream (snd x)) xs -> len (w_bytes w) < 0x10000000000000000 ->
  xs = rs /\ (r = r' /\ w_bytes w = b \/ (exists io, r = Err (UpstreamReadError io)) /\ prefix_of (w_bytes w) b).
Proof.
  intros T G. unfold run_archive, session_ends. pose proof (run_ops_any cd l T G (zw_new sched) eq_refl) as A.
  pose proof (cds_short_run_ops cd l T (zw_new sched) ltac:(constructor)) as S. destruct (run_ops cd l (zw_new sched)) as [xs w1]. cbn [snd] in S.
  pose proof (wsim_close w1) as SIM. unfold sim_at in SIM. pose proof (bytes_close w1) as LE. pose proof (close_session (calmw w1) S eq_refl) as CS.
  destruct (zw_close w1) as [r w2]. destruct (zw_close (calmw w1)) as [r0 w0]. cbn [snd] in LE. change (view (zw_new sched)) with fresh in A.
  destruct (calls_end (data_of cd) fresh l) as [rs s]. destruct (close_ends s) as [r' b] eqn:CE. intros NU LB. destruct (A NU ltac:(lia)) as [E OF].
  injection E as <- ->. split; [reflexivity|]. specialize (CS OF). rewrite view_calm, CE in CS. injection CS as -> ->.
  destruct SIM as (_ & _ & u & _ & [(-> & E & _)|(io & -> & _ & P)]); [left; split; [reflexivity|now rewrite <- E]|right; split; [now exists io|exact P]].
Qed.

(** ** Data that goes in as it is *)
Lemma stored_data cd o : enc_takes cd -> uncoded o -> forall s, call_ends (data_of cd) s o = call_ends told_by s o.
Proof.
  intros T U s. pose proof (data_stores cd T o) as D. destruct o as [| |c|e d|e d|pre e body closed]; try reflexivity; cbn [call_ends].
  - cbn [uncoded] in U. unfold no_encoder. destruct U as [U|U]; rewrite U; [|reflexivity]. cbn [data_of told_by]. now rewrite U.
  - destruct pre.
    + assert (E : data_of cd (OpStream true e body closed) = told_by (OpStream true e body closed)) by exact D. now rewrite E.
    + cbn [uncoded] in U. unfold no_encoder. destruct U as [U|U]; rewrite U.
      * assert (E : data_of cd (OpStream false e body closed) = told_by (OpStream false e body closed)).
        { cbn [data_of told_by]. unfold new_enc. rewrite U, feed_ops_none. destruct closed; cbn [fin_writes concat]; now rewrite ?app_nil_r. }
        now rewrite E.
      * reflexivity.
Qed.
Lemma stored_calls cd l : enc_takes cd -> Forall uncoded l -> forall s, calls_end (data_of cd) s l = calls_end told_by s l.
Proof.
  intro T. induction 1 as [|o l U _ IH]; intro s; [reflexivity|]. cbn [calls_end]. rewrite (stored_data cd o T U). destruct (call_ends told_by s o) as [r s1]. now rewrite IH.
Qed.
Lemma plain_session cd sched l : enc_takes cd -> obliging sched -> Forall op_good l -> Forall uncoded l ->
  let '(xs, r, w) := run_archive cd sched l in
  len (w_bytes w) < 0x10000000000000000 -> session_ends told_by l = (xs, r, w_bytes w).
Proof.
  intros T OB G U. pose proof (archive_session cd sched l T OB G) as H. destruct (run_archive cd sched l) as [[xs r] w]. intro LB. rewrite <- (H LB).
  unfold session_ends. now rewrite (stored_calls cd l T U).
Qed.
Lemma whole_story cd : enc_takes cd -> exists data, (forall o, stores cd o (data o)) /\
  forall sched l, obliging sched -> Forall op_good l ->
  let '(xs, r, w) := run_archive cd sched l in len (w_bytes w) < 0x10000000000000000 -> session_ends data l = (xs, r, w_bytes w).
Proof. intro T. exists (data_of cd). split; [exact (data_stores cd T)|]. intros sched l. now apply archive_session. Qed.
Lemma faulty_story cd : enc_takes cd -> exists data, (forall o, stores cd o (data o)) /\
  (forall sched l o, Forall op_good l -> op_good o ->
   let '(xs, w1) := run_ops cd l (zw_new sched) in
   let '(r, w2) := run_op cd o w1 in
   let '(rs, s) := calls_end data fresh l in
   let '(r', s') := call_ends data s o in
   Forall (fun x => says_no_upstream (snd x)) xs -> len (w_bytes w1) < 0x10000000000000000 -> len (data o) < 0x10000000000000000 ->
   xs = rs /\ w_bytes w1 = s_bytes s /\
   (r = r' /\ w_bytes w2 = s_bytes s' \/ (exists io, r = Err (UpstreamReadError io)) /\ prefix_of (s_bytes s) (w_bytes w2) /\ prefix_of (w_bytes w2) (s_bytes s'))) /\
  (forall sched l, Forall op_good l ->
   let '(xs, r, w) := run_archive cd sched l in
   let '(rs, r', b) := session_ends data l in
   Forall (fun x => says_no_upstream (snd x)) xs -> len (w_bytes w) < 0x10000000000000000 ->
   xs = rs /\ (r = r' /\ w_bytes w = b \/ (exists io, r = Err (UpstreamReadError io)) /\ prefix_of (w_bytes w) b)).
Proof.
  intro T. exists (data_of cd). split; [exact (data_stores cd T)|]. split; [intros sched l o; now apply any_sink|intros sched l; now apply any_close].
Qed.
