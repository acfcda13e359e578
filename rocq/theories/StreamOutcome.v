(** How calls that write an entry as a stream end. *)
From Verif Require Import Base BaseFacts Crc32 CrcFacts ZString ZDate Headers HeadersFacts ExtraField ExtraFieldFacts Entry IO IOFacts
  Locator LocatorFacts Reader EntryReader Writer WriterFacts WholeFacts StreamFacts SpecFormat SpecCrc SpecUtf8 SpecArchive SpecRead SpecWrite
  EntryProofs ReadProofs WriteProofs RecordFacts HistFacts CloseFacts RoundTrip OutcomeFacts FarFiles SpecOutcome.
Arguments N.add : simpl never.
Arguments N.sub : simpl never.

Lemma plain_no_disk x : plain_field x -> no_disk x.
Proof. now destruct x. Qed.
Lemma plain_no_disks l : Forall plain_field l -> Forall no_disk l.
Proof. intro H. eapply Forall_impl; [|exact H]. exact plain_no_disk. Qed.

Lemma calm_moved w w' b u f : w_sched w = [] -> moved w w' b u f -> u = [] /\ w_sched w' = [].
Proof. intros S [M _]. rewrite S in M. symmetry in M. now apply app_eq_nil in M. Qed.
Lemma calm_faulty io : ~ faulty [] io.
Proof. intros (ev & [] & _). Qed.

Lemma ltb_negb n : negb (n <? 65536) = (65535 <? n).
Proof. destruct (N.ltb_spec n 65536), (N.ltb_spec 65535 n); cbn; lia. Qed.

Section One.
  Variables (pre fn : bool) (e : zentry) (content z : bytes) (off : N).
  Let it := stream_item fn e (sw_usize pre e content) (sw_crc pre e content) z off.
  Let e3 := so_e3 fn e.
  Let lx := en_extra e3.
  Hypothesis EF : entry_fine e.

  Lemma so_texts : texts (en_filename e) (en_comment e) (utf8_flag e) (en_extra e ++ local_zip64 it) lx.
  Proof. exact (proj2 (proj2 (proj2 (proj2 (proj2 (proj2 (proj2 (proj2 (proj2 (so_e3_facts fn e (sw_usize pre e content) (sw_crc pre e content) z off)))))))))). Qed.
  Lemma so_name : en_filename e3 = en_filename e /\ en_comment e3 = en_comment e.
  Proof. destruct (so_e3_facts fn e (sw_usize pre e content) (sw_crc pre e content) z off) as (A & B & _). now split. Qed.
  Lemma so_len : fields_count_bytes lx = len (spec_extras lx).
  Proof. apply count_len. eapply texts_no_disk; [exact so_texts|]. apply Forall_app. split; [apply plain_no_disks; apply EF|apply local_no_disk]. Qed.
  Lemma so_refused_is : so_refused fn e =
    if 65535 <? len (spec_extras lx) then Some ExtraFieldTooLarge else if 65535 <? len (i_name it) then Some FileNameTooLarge else None.
  Proof. unfold so_refused. cbv zeta. fold e3. fold lx. rewrite so_len, (proj1 so_name), !ltb_negb. reflexivity. Qed.

  Lemma so_split : exists b a, lx = b ++ local_zip64 it ++ a /\ Forall plain_field b /\ Forall plain_field a.
  Proof.
    apply (texts_split _ _ _ _ _ _) with (3 := so_texts); [|apply EF].
    unfold local_zip64, it, zip64_extra. cbn. destruct fn; repeat constructor. eexists. reflexivity.
  Qed.

  Lemma so_head : fn && so_big e = false -> so_refused fn e = None ->
    head_bytes (so_lfh fn e) e3 = local_image it (as_needed_to_extract e3) (utf8_flag e) lx.
  Proof.
    intros SB R. pose proof (so_e3_facts fn e (sw_usize pre e content) (sw_crc pre e content) z off) as F. cbv zeta in F. fold it e3 in F.
    destruct F as (Fn & Fc & Fm & Fd & Fr & Fi & Fe & Fu & Ff & T).
    assert (ZZ : Forall zip64_ok (local_zip64 it)).
    { unfold local_zip64, it. cbn [i_stream i_no64 stream_item]. destruct fn; [constructor|]. constructor; [|constructor].
      cbn. unfold zip64_wt. cbn. destruct EF as [(D1 & D2 & D3 & D4 & D5 & D6 & D7) _]. repeat split; try easy; apply EF. }
    destruct so_split as (b & a & E & Pb & Pa).
    destruct (sandwich_ok b (local_zip64 it) a Pb ZZ Pa) as [W1 W2]. rewrite <- E in W1, W2.
    destruct (image_ok _ W1 W2 (proj1 (so_count _ _ R))) as [I1 I2].
    rewrite head_bytes_eq. unfold so_lfh. fold e3. unfold make_lfh. cbn [l_version l_flags l_compression l_mod_time l_mod_date l_crc
      l_compressed_size l_uncompressed_size l_file_name_length l_extra_field_length flags_of gp_encrypted gp_data_descriptor gp_filename_unicode].
    unfold local_image. cbv zeta. cbn [i_stream i_no64 it stream_item i_entry i_crc]. fold it lx.
    rewrite Fn, Fm, Fd, Fr, Ff, I1, I2.
    destruct fn; cbn [negb]; [|reflexivity]. cbn [andb] in SB. unfold so_big in SB. apply orb_false_iff in SB as [B1 B2].
    rewrite !as_u32_small by now apply not_over. reflexivity.
  Qed.

  Context {cd : codec}.
  Variables (doff : N) (enc0 enc : option (est cd)).
  Let sw := fed (opened pre fn e off doff enc0) content enc.

  Lemma sc_e1_is : sc_e1 sw = measured e3 (sw_usize pre e content) (sw_crc pre e content).
  Proof.
    pose proof (so_e3_facts fn e (sw_usize pre e content) (sw_crc pre e content) z off) as F. cbv zeta in F. fold it e3 in F.
    destruct F as (Fn & Fc & Fm & Fd & Fr & Fi & Fe & Fu & Ff & T).
    unfold sc_e1, sw, fed, sw_advance, opened. cbn [sw_pre sw_entry sw_hasher sw_uoffset]. fold e3. unfold sw_usize, sw_crc, measured.
    destruct pre; [rewrite <- Fu, <- Fr; destruct e3; reflexivity|]. rewrite <- crc32_is_spec. unfold crc32. reflexivity.
  Qed.
  Lemma sc_big_is : sc_big sw (len z) = i_big it || is_over (i_off it).
  Proof. unfold sc_big. rewrite sc_e1_is. reflexivity. Qed.
  Lemma sc_len : fields_count_bytes (en_extra (sc_e2 sw (len z))) = len (spec_extras lx) + if fn then 0 else 8.
  Proof.
    destruct so_split as (b & a & E & Pb & Pa). pose proof so_len as L.
    unfold sc_e2. cbv zeta. rewrite sc_e1_is. change (sw_force_no sw) with fn. rewrite <- L.
    unfold set_extra. cbn [en_extra measured set_crc32 set_uncompressed_size en_uncompressed_size].
    unfold local_zip64, it, zip64_extra in E. cbn [i_stream i_no64 i_entry stream_item] in E.
    destruct (Bool.bool_dec fn true) as [FN|FN]; [rewrite FN, N.add_0_r; reflexivity|]. apply Bool.not_true_is_false in FN. rewrite FN in E |- *.
    cbn [en_extra]. unfold measured, set_crc32, set_uncompressed_size. cbn [en_extra en_uncompressed_size]. fold lx. rewrite E.
    cbn [app]. rewrite put_zip64_at by easy. rewrite !fields_count_app. cbn [fields_count_bytes field_count_bytes].
    unfold zip64_count_bytes, content_size. cbn [zf_uncompressed zf_compressed zf_offset zf_disk]. unfold opt_size. lia.
  Qed.
  Lemma sc_desc_is : fn && sc_big sw (len z) = false -> concat (sc_descriptor sw (len z)) = descriptor_image it.
  Proof.
    intro BG. rewrite sc_big_is in BG. unfold sc_descriptor, descriptor_image, data_descriptor32, record. cbn [i_stream i_no64 it stream_item concat map fst snd i_crc].
    unfold sc_first, sc_second. rewrite sc_e1_is. change (sw_force_no sw) with fn. rewrite !le_to_le.
    unfold put_csize, put_usize, i_swapped, i_csize. cbn [i_stream i_no64 it stream_item i_usize i_data]. fold it.
    unfold i_big in BG. cbn [i_stream i_no64 it stream_item i_usize i_data i_off] in BG. unfold i_csize in BG. cbn [i_data stream_item] in BG.
    unfold measured, set_crc32, set_uncompressed_size. cbn [en_uncompressed_size en_crc32].
    destruct (Bool.bool_dec fn true) as [FN|FN]; [|apply Bool.not_true_is_false in FN]; rewrite FN in *; cbn [andb] in *; [|reflexivity].
    apply orb_false_iff in BG as [BG _].
    apply orb_false_iff in BG as [B1 B2]. apply is_over_false in B1, B2.
    rewrite !as_u32_small by easy. reflexivity.
  Qed.
End One.

Lemma stream_opening cd pre e w : entry_fine e ->
  let fn := w_force_no w in
  let it := stream_item fn e 0 0 [] (w_offset w) in
  let '(r, w') := stream_open cd pre e w in
  (pre = true \/ en_compression e <> Deflate64) ->
  opening_outcome w it (en_extra (so_e3 fn e)) (match r with Err x => Some x | _ => None end) w' /\ (forall p, r <> Panic p).
Proof.
  intros EF. cbv zeta. pose proof (stream_open_spec cd pre e w) as O. cbv zeta in O. set (fn := w_force_no w) in *.
  pose proof (so_refused_is pre fn e [] [] (w_offset w) EF) as RI.
  assert (WC : w_cds (so_world w) = w_cds w) by (unfold so_world; now destruct (w_force_no w)).
  assert (WB : w_sink (so_world w) = w_sink w) by (unfold so_world; now destruct (w_force_no w)).
  destruct (stream_open cd pre e w) as [r w1]. intro PC. unfold opening_outcome. cbn [i_no64 i_entry stream_item].
  change (is_over (en_compressed_size e) || is_over (en_uncompressed_size e)) with (so_big e).
  destruct (fn && so_big e); [destruct O as [-> ->]; now split|].
  change (i_name (stream_item fn e 0 0 [] (w_offset w))) with (i_name (stream_item fn e (sw_usize pre e []) (sw_crc pre e []) [] (w_offset w))).
  rewrite RI in O. destruct (65535 <? len (spec_extras (en_extra (so_e3 fn e)))); [destruct O as [-> ->]; now rewrite WC, WB|].
  destruct (65535 <? _); [destruct O as [-> ->]; now rewrite WC, WB|].
  destruct O as (u & O). destruct r as [sw|x|p]; [now split; [left|]| |].
  - destruct O as (io & p & -> & _). split; [right; now exists io|easy].
  - exfalso. destruct O as (_ & -> & D & _). destruct PC as [PC|PC]; [discriminate|now elim PC].
Qed.

Lemma streamed_let cd pre e body w : enc_takes cd -> entry_fine e -> (pre = true \/ en_compression e <> Deflate64) -> k_sched (w_sink w) = [] ->
  exists it version flag lx, leaves cd (w_force_no w) (OpStream pre e body true) it /\ i_off it = w_offset w /\
    texts (en_filename e) (en_comment e) flag (en_extra e ++ local_zip64 it) lx /\ needs e version /\
    let '(r, w') := run_op cd (OpStream pre e body true) w in stream_outcome w it lx (local_image it version flag lx) r w'.
Proof.
  intros T EF PC SC. cbn [run_op]. pose proof (stream_open_spec cd pre e w) as O. cbv zeta in O.
  set (fn := w_force_no w) in *. unfold bind at 1. set (off := w_offset w) in *.
  assert (WC : w_cds (so_world w) = w_cds w) by (unfold so_world; now destruct (w_force_no w)).
  assert (WS : w_sink (so_world w) = w_sink w) by (unfold so_world; now destruct (w_force_no w)).
  assert (NE : exists enc, new_enc cd pre (en_compression e) = Ok enc).
  { unfold new_enc. destruct pre; [now eexists|]. destruct PC as [PC|PC]; [discriminate|]. destruct (en_compression e); solve [now elim PC|eexists; reflexivity]. }
  destruct NE as (enc & NE).
  destruct (feed_ops enc body) as [out enc'] eqn:FO.
  set (z := out ++ concat (fin_writes enc')).
  set (it := stream_item fn e (sw_usize pre e (fed_bytes body)) (sw_crc pre e (fed_bytes body)) z off).
  set (lx := en_extra (so_e3 fn e)).
  pose proof (so_refused_is pre fn e (fed_bytes body) z off EF) as RI. fold it lx in RI.
  exists it, (as_needed_to_extract (so_e3 fn e)), (utf8_flag e), lx.
  split.
  { unfold it, z, stream_item. unfold sw_usize, sw_crc. destruct pre.
    + cbn in NE. okinv NE. subst enc. rewrite feed_ops_none in FO. injection FO as <- <-. cbn [fin_writes concat]. rewrite app_nil_r. apply leaves_stream_pre.
    + apply leaves_stream. unfold new_enc in NE.
      destruct (en_compression e) eqn:CE; try discriminate; okinv NE; subst enc.
      { rewrite feed_ops_none in FO. injection FO as <- <-. cbn [fin_writes concat]. rewrite app_nil_r. now constructor. }
      all: pose proof (feed_ops_runs cd T body (enc_init cd (en_compression e) LDefault)) as FR; rewrite CE, FO in FR; destruct FR as (st' & -> & FR);
        cbn [fin_writes concat]; rewrite app_nil_r; eapply comp_encoded; [discriminate|discriminate|exact FR]. }
  split; [reflexivity|]. split; [exact (so_texts pre fn e (fed_bytes body) z off)|].
  pose proof (so_e3_facts fn e (sw_usize pre e (fed_bytes body)) (sw_crc pre e (fed_bytes body)) z off) as F. cbv zeta in F.
  split. { apply (needs_same (so_e3 fn e)); [apply F|apply F|apply needs_version]. }
  unfold stream_outcome. cbv zeta. change (i_no64 it) with fn. change (i_entry it) with e.
  change (is_over (en_compressed_size e) || is_over (en_uncompressed_size e)) with (so_big e).
  destruct (stream_open cd pre e w) as [r w1].
  destruct (fn && so_big e) eqn:SB; [destruct O as [-> ->]; now cbn [fst snd]|].
  rewrite RI in O. destruct (65535 <? len (spec_extras lx)) eqn:X1; [destruct O as [-> ->]; cbn [fst snd]; now rewrite WC, WS|].
  destruct (65535 <? len (i_name it)) eqn:X2; [destruct O as [-> ->]; cbn [fst snd]; now rewrite WC, WS|].
  pose proof (so_head pre fn e (fed_bytes body) z off EF SB RI) as HB. fold it lx in HB. rewrite <- HB.
  assert (CS : w_sched (so_world w) = []) by (unfold w_sched; now rewrite WS).
  destruct O as (us & O). destruct r as [sw0|x|p].
  2:{ exfalso. destruct O as (io & p & _ & _ & M & Fa). destruct (calm_moved _ _ _ _ _ CS M) as [-> _]. exact (calm_faulty _ Fa). }
  2:{ exfalso. destruct O as (_ & -> & D & _). destruct PC as [PC|PC]; [discriminate|now elim PC]. }
  destruct O as (M1 & _ & enc2 & NE2 & ->). rewrite NE in NE2. okinv NE2. subst enc2.
  destruct (calm_moved _ _ _ _ _ CS M1) as [_ C1]. destruct (so_count _ _ RI) as [SN _].
  set (head := head_bytes (so_lfh fn e) (so_e3 fn e)) in *. set (doff := off + len head) in *.
  pose proof (moved_cds _ _ _ _ _ M1) as MC1. pose proof (moved_bytes _ _ _ _ _ M1) as MB1.
  pose proof (moved_offset _ _ _ _ _ M1) as MO1. replace (w_offset (so_world w)) with off in MO1 by (unfold so_world; now destruct (w_force_no w)).
  assert (WB : w_bytes (so_world w) = w_bytes w) by (unfold w_bytes; now rewrite WS). rewrite WC in MC1. rewrite WB in MB1.
  pose proof (stream_body_ok body T (opened pre fn e off doff enc) w1) as B. cbn [sw_enc opened] in B. rewrite FO in B.
  unfold bind at 1. unfold fed_ok in B.
  destruct (stream_body (opened pre fn e off doff enc) body w1) as [[sw2|x|p] w2]; cbn [fst snd] in B; destruct B as (u2 & B); [| |easy].
  2:{ exfalso. destruct B as (io & p & f & _ & _ & M & Fa). destruct (calm_moved _ _ _ _ _ C1 M) as [-> _]. exact (calm_faulty _ Fa). }
  destruct B as (nf & M2 & ->). rewrite content_fed. destruct (calm_moved _ _ _ _ _ C1 M2) as [_ C2].
  pose proof (moved_cds _ _ _ _ _ M2) as MC2. pose proof (moved_bytes _ _ _ _ _ M2) as MB2.
  pose proof (moved_offset _ _ _ _ _ M2) as MO2. rewrite MC1 in MC2. rewrite MB1 in MB2. rewrite MO1 in MO2.
  set (sw := fed (opened pre fn e off doff enc) (fed_bytes body) enc').
  rewrite stream_close_eq; [|exact SN|reflexivity].
  change (sw_enc sw) with enc'.
  unfold bind. pose proof (puts_ok (fin_writes enc') w2) as P. unfold put_ok in P.
  destruct (puts (fin_writes enc') w2) as [[x|x|p] w3]; cbn [fst snd] in P; destruct P as (u3 & P); [| |easy].
  2:{ exfalso. destruct P as (io & p & _ & _ & M & Fa). destruct (calm_moved _ _ _ _ _ C2 M) as [-> _]. exact (calm_faulty _ Fa). }
  destruct P as [M3 _]. destruct (calm_moved _ _ _ _ _ C2 M3) as [_ C3].
  pose proof (moved_cds _ _ _ _ _ M3) as MC3. pose proof (moved_bytes _ _ _ _ _ M3) as MB3.
  pose proof (moved_offset _ _ _ _ _ M3) as MO3. rewrite MC2 in MC3. rewrite MB2 in MB3. rewrite MO2 in MO3.
  assert (CZ : w_offset w3 - doff = len z) by (unfold z, doff; rewrite MO3, len_app; lia).
  unfold close_rest. cbv zeta. change (sw_data_offset sw) with doff. change (sw_force_no sw) with fn. rewrite CZ.
  assert (B3 : w_bytes w3 = w_bytes w ++ head ++ i_data it) by (rewrite MB3; change (i_data it) with z; unfold z; now rewrite <- !app_assoc).
  pose proof (sc_big_is pre fn e (fed_bytes body) z off doff enc enc') as BI. fold sw it in BI.
  pose proof (sc_len pre fn e (fed_bytes body) z off EF doff enc enc') as LI. fold sw lx in LI.
  pose proof (sc_desc_is pre fn e (fed_bytes body) z off doff enc enc') as DI. fold sw it in DI.
  destruct (fn && sc_big sw (len z)) eqn:BG; rewrite BI in BG; rewrite BG.
  { cbn [fst snd]. rewrite app_nil_r. auto. }
  specialize (DI eq_refl). rewrite LI, ltb_negb.
  assert (LL : (65535 <? len (spec_extras lx) + (if fn then 0 else 8)) = negb fn && (65527 <? len (spec_extras lx))).
  { destruct fn; cbn [negb andb]; [rewrite N.add_0_r; exact X1|]. destruct (N.ltb_spec 65527 (len (spec_extras lx))), (N.ltb_spec 65535 (len (spec_extras lx) + 8)); lia. }
  rewrite LL. destruct (negb fn && (65527 <? len (spec_extras lx))).
  { cbn [fst snd]. rewrite app_nil_r. auto. }
  unfold bind. pose proof (puts_ok (sc_descriptor sw (len z)) w3) as P. unfold put_ok in P.
  destruct (puts (sc_descriptor sw (len z)) w3) as [[y|y|p] w4]; cbn [fst snd] in P; destruct P as (u4 & P); [| |easy].
  2:{ exfalso. destruct P as (io & p & _ & _ & M & Fa). destruct (calm_moved _ _ _ _ _ C3 M) as [-> _]. exact (calm_faulty _ Fa). }
  destruct P as [M4 _].
  pose proof (moved_cds _ _ _ _ _ M4) as MC4. pose proof (moved_bytes _ _ _ _ _ M4) as MB4.
  rewrite MC3 in MC4. rewrite B3, DI, <- !app_assoc in MB4.
  change (en_comment (sw_entry sw)) with (en_comment (so_e3 fn e)). rewrite (proj1 (proj2 F)).
  change (basic_bytes (en_comment e)) with (i_comment it).
  destruct (N.ltb_spec (len (i_comment it)) 65536) as [LC|LC]; destruct (N.ltb_spec 65535 (len (i_comment it))) as [LD|LD]; try lia.
  2:{ unfold fail. cbn [fst snd]. auto. }
  rewrite push_and_check_eq. cbv zeta. assert (LP : len (w_cds (push_cd w4 (sc_cd sw (len z)))) = len (w_cds w) + 1).
  { cbn. rewrite MC4, len_app. reflexivity. }
  rewrite LP. change NON_ZIP64_MAX_NUM_FILES with 65535.
  destruct (65535 <? len (w_cds w) + 1); cbn [andb]; [destruct fn|rewrite andb_false_r]; cbn [andb fst snd]; auto.
Qed.
Lemma streamed cd pre e body w : enc_takes cd -> entry_fine e -> (pre = true \/ en_compression e <> Deflate64) -> k_sched (w_sink w) = [] ->
  exists it version flag lx, leaves cd (w_force_no w) (OpStream pre e body true) it /\ i_off it = w_offset w /\
    texts (en_filename e) (en_comment e) flag (en_extra e ++ local_zip64 it) lx /\ needs e version /\
    stream_outcome w it lx (local_image it version flag lx)
      (fst (run_op cd (OpStream pre e body true) w)) (snd (run_op cd (OpStream pre e body true) w)).
Proof.
  intros T EF PC SC. pose proof (streamed_let cd pre e body w T EF PC SC) as H. destruct (run_op cd _ w) as [r w']. exact H.
Qed.

(** ** A comment that is too long is noticed when everything else has been written *)
Lemma texts_plain n c f xs ys : plain_text n -> plain_text c -> texts n c f xs ys -> f = true /\ ys = xs.
Proof. intros P Q. destruct 1 as [xs _ _|xs ys zs H _ _]; [now split|]. elim H. now split. Qed.
Lemma local_image_len it v f lx : len (local_image it v f lx) = 30 + len (i_name it) + len (spec_extras lx).
Proof. unfold local_image. cbv zeta. rewrite !len_app. change (len (local_header _ _ _ _ _ _ _ _ _ _)) with 30. lia. Qed.
Lemma descriptor_image_len it : i_stream it = true -> len (descriptor_image it) = 16.
Proof. intro S. unfold descriptor_image. rewrite S. reflexivity. Qed.

Definition plain (l : bytes) : zstring := {| zs_enc := EUtf8; zs_raw := l; zs_alt := None |}.
Definition wordy (n : nat) : zentry :=
  {| en_filename := plain [x61]; en_compression := Stored; en_crc32 := 0; en_uncompressed_size := 0; en_compressed_size := 0;
     en_attr_compat := Unix; en_date := {| zd_date := 33; zd_time := 0 |}; en_iattr := 0; en_eattr := 0; en_extra := [];
     en_comment := plain (repeat x61 n); en_data_descriptor := false; en_level := LDefault |}.
Lemma wordy_late n cd body : enc_takes cd -> N.of_nat n = 65536 ->
  let '(r, w') := run_op cd (OpStream false (wordy n) body true) (zw_new []) in
  r = Err CommentTooLarge /\ w_cds w' = [] /\ len (w_bytes w') = 67 + len (fed_bytes body).
Proof.
  intros T E.
  assert (EF : entry_fine (wordy n)) by (unfold entry_fine, entry_wt; cbn; repeat split; constructor).
  assert (CC : en_compression (wordy n) <> Deflate64) by discriminate.
  destruct (streamed cd false (wordy n) body (zw_new []) T EF (or_intror CC) eq_refl) as (it & v & f & lx & LV & OF & TX & _ & SO).
  destruct (run_op cd (OpStream false (wordy n) body true) (zw_new [])) as [r w']. cbn [fst snd] in SO.
  change (w_force_no (zw_new [])) with false in LV. 
  remember (OpStream false (wordy n) body true) as o eqn:EO. destruct LV as [e d z off Z|e z off|e b z off Z|e b off]; try discriminate EO.
  injection EO as -> ->.
  assert (ZB : z = fed_bytes body).
  { change (en_compression (wordy n)) with Stored in Z. remember Stored as c eqn:EC. destruct Z; [reflexivity|congruence]. }
  subst z. cbn [i_off] in OF. subst off.
  set (it := {| i_stream := true; i_no64 := false; i_entry := wordy n; i_usize := len (fed_bytes body); i_crc := crc32_spec (fed_bytes body);
         i_data := fed_bytes body; i_off := w_offset (zw_new []) |}) in *.
  apply texts_plain in TX as [-> ->]; [|now split|now split].
  unfold stream_outcome in SO. cbv zeta in SO. change (i_no64 it) with false in SO.
  change (len (spec_extras (en_extra (wordy n) ++ local_zip64 it))) with 20 in SO. change (len (i_name it)) with 1 in SO.
  assert (LC : len (i_comment it) = 65536) by (change (i_comment it) with (repeat x61 n); unfold len; now rewrite repeat_length).
  rewrite LC in SO. cbn [andb negb] in SO. change (65535 <? 20) with false in SO. change (65535 <? 1) with false in SO.
  change (65527 <? 20) with false in SO. change (65535 <? 65536) with true in SO. cbv iota in SO.
  destruct SO as (-> & WB & WC). split; [reflexivity|]. split; [exact WC|]. rewrite WB.
  change (w_bytes (zw_new [])) with (@nil byte). cbn [app]. rewrite !len_app, local_image_len, descriptor_image_len by reflexivity.
  change (len (spec_extras (en_extra (wordy n) ++ local_zip64 it))) with 20. change (len (i_name it)) with 1.
  change (i_data it) with (fed_bytes body). lia.
Qed.
Lemma stream_opened cd pre e w : entry_fine e -> (pre = true \/ en_compression e <> Deflate64) ->
  exists it flag lx, i_stream it = true /\ i_no64 it = w_force_no w /\ i_entry it = e /\
    texts (en_filename e) (en_comment e) flag (en_extra e ++ local_zip64 it) lx /\
    match stream_open cd pre e w with
    | (Ok _, w') => opening_outcome w it lx None w'
    | (Err x, w') => opening_outcome w it lx (Some x) w'
    | (Panic _, _) => False
    end.
Proof.
  intros EF PC. pose proof (stream_opening cd pre e w EF) as H. cbv zeta in H. set (it := stream_item (w_force_no w) e 0 0 [] (w_offset w)) in *.
  exists it, (utf8_flag e), (en_extra (so_e3 (w_force_no w) e)). split; [reflexivity|]. split; [reflexivity|]. split; [reflexivity|]. split.
  - exact (so_texts pre (w_force_no w) e [] [] (w_offset w)).
  - destruct (stream_open cd pre e w) as [[sw|x|p] w']; destruct (H PC) as [H1 H2]; [exact H1|exact H1|now elim (H2 p)].
Qed.
Lemma wordy_refused : exists e, len (stored_bytes (en_comment e)) = 65536 /\ forall cd body, enc_takes cd ->
  let '(r, w) := run_op cd (OpStream false e body true) (zw_new []) in
  r = Err CommentTooLarge /\ w_cds w = [] /\ len (w_bytes w) = 67 + len (fed_bytes body).
Proof.
  destruct (nat_of 65536) as (n & E). exists (wordy n). split.
  - cbn [en_comment wordy plain]. unfold stored_bytes, len. cbn. now rewrite repeat_length.
  - intros cd body T. exact (wordy_late n cd body T E).
Qed.
