(** The length of an archive. *)
From Verif Require Import Base BaseFacts Crc32 CrcFacts SpecFormat SpecCrc SpecUtf8 SpecArchive SpecRead SpecWrite ZString ZDate Headers ExtraField Entry IO IOFacts Reader
  EntryReader Writer WriterFacts WholeFacts StreamFacts WriteProofs RecordFacts HistFacts CloseFacts OutcomeFacts RepeatFacts SpecOutcome StreamOutcome
  SpecOrdinary OrdinaryProofs AllWork SpecSize.

Lemma is_plain_iff s : is_plain s = true <-> plain_text s.
Proof. unfold is_plain, plain_text. destruct (zs_enc s), (zs_alt s); split; intros; try easy; now destruct H. Qed.

(** ** Extra fields *)
Lemma told_exact mk b t xs ys : is_unicode mk -> none_of mk xs -> told mk b t xs ys -> ys = xs ++ [mk (UV1 (crc32_spec b) t)].
Proof.
  intros U N T. destruct T as [xs' _|a crc old b' _|a v d b' _]; [reflexivity|..]; exfalso; unfold none_of in N; rewrite Forall_app in N; destruct N as [_ N];
    inversion N as [|x l H _]; subst; now eapply H.
Qed.
Lemma spelled_exact mk s xs ys : is_unicode mk -> none_of mk xs -> spelled mk s xs ys ->
  (ys = xs \/ exists u, ys = xs ++ [mk u]) /\ len (spec_extras ys) = len (spec_extras xs) + field_for s.
Proof.
  intros U N SP. destruct SP as [xs' ys' E R T|xs' H]; unfold field_for.
  - apply (told_exact _ _ _ _ _ U N) in T. subst ys'. split; [right; now eexists|]. rewrite E.
    destruct (N.eqb_spec (len (zs_raw s)) 0) as [Z|Z]; [now apply len_0 in Z|].
    rewrite spec_extras_app, len_app, spec_extras_cons, len_app, len_extra, U. change (len (spec_extras [])) with 0. lia.
  - split; [now left|]. destruct H as [H| ->]; [|cbn; destruct (zs_enc s); lia]. destruct (zs_enc s); [now elim H|lia].
Qed.
Lemma texts_exact e f xs ys : none_of XPath xs -> none_of XComment xs -> texts (en_filename e) (en_comment e) f xs ys ->
  len (spec_extras ys) = len (spec_extras xs) + text_fields e.
Proof.
  intros NP NC TX. destruct TX as [xs' A B|xs' ys' zs NB A B]; unfold text_fields.
  - apply is_plain_iff in A, B. rewrite A, B. cbn. lia.
  - replace (is_plain (en_filename e) && is_plain (en_comment e)) with false.
    2:{ symmetry. apply not_true_is_false. intro H. apply andb_true_iff in H. now rewrite !is_plain_iff in H. }
    apply (spelled_exact _ _ _ _ path_unicode NP) in A as [A1 A2].
    assert (NC' : none_of XComment ys').
    { destruct A1 as [->|(u & ->)]; [exact NC|]. apply Forall_app. split; [exact NC|]. constructor; [|constructor]. intros v. discriminate. }
    apply (spelled_exact _ _ _ _ comment_unicode NC') in B as [_ B]. lia.
Qed.

(** ** One entry *)
Lemma laid_size it a v f lx : laid_out it a v f lx -> unsaid (i_entry it) -> i_no64 it = false ->
  (i_stream it = false -> i_big it = false /\ is_over (i_off it) = false) ->
  len (local_image it v f lx) = local_size (i_entry it) (i_stream it) /\
  len (member_record a) = central_size (i_entry it) (i_stream it).
Proof.
  intros L (NP & NC) N64 SM. destruct L as [_ lo_local0 _ _ _ _ _ _ _ _ _ _ _ lo_u0 lo_c0 lo_o0 lo_d0 _ _ lo_name0 lo_comment0 lo_extras0 _]. set (e := i_entry it) in *.
  assert (Z : local_zip64 it = if i_stream it then [zip64_extra (Some (en_uncompressed_size e)) (Some (en_compressed_size e)) None] else []).
  { unfold local_zip64. rewrite N64. destruct (i_stream it); [reflexivity|]. destruct (SM eq_refl) as [-> _]. reflexivity. }
  assert (X : len (spec_extras lx) = extras_size e + if i_stream it then 20 else 0).
  { apply texts_exact in lo_local0.
    - rewrite lo_local0, spec_extras_app, len_app, Z. unfold extras_size. destruct (i_stream it); cbn; lia.
    - rewrite Z. apply Forall_app. split; [exact NP|]. destruct (i_stream it); repeat constructor. intros u; discriminate.
    - rewrite Z. apply Forall_app. split; [exact NC|]. destruct (i_stream it); repeat constructor. intros u; discriminate. }
  split; [rewrite local_image_len, X; unfold local_size, i_name; fold e; lia|].
  assert (AX : len (spec_extras (a_extras a)) = extras_size e + if i_stream it then 28 else 0).
  { destruct lo_extras0 as (b & af & E & B & A). unfold a_extras, a_zip64. rewrite B, A, lo_u0, lo_c0, lo_o0, lo_d0.
    rewrite E, !spec_extras_app, !len_app, Z in X. unfold in64, off64. rewrite N64.
    destruct (i_stream it); cbn [negb andb orb when].
    - rewrite app_nil_r, !spec_extras_app, !len_app. change (len (spec_extras [zip64_extra _ _ _])) with 20 in X.
      match goal with |- context [len (spec_extras [?z])] => change (len (spec_extras [z])) with 28 end. lia.
    - destruct (SM eq_refl) as [-> ->]. cbn [negb andb orb]. rewrite app_nil_r, !spec_extras_app, !len_app. change (len (spec_extras [])) with 0 in *. lia. }
  unfold member_record. rewrite !len_app, AX, lo_name0, lo_comment0. unfold central_size, i_name, i_comment. fold e.
  match goal with |- len (central_header ?a ?b ?c ?d ?e ?f ?g ?h ?i ?j ?k ?l ?m ?n ?o ?p) + _ = _ => change (len (central_header a b c d e f g h i j k l m n o p)) with 46 end. lia.
Qed.

(** ** One call *)
Definition held (w : world) : N := len (w_bytes w) + len (concat (map ce_bytes (w_cds w))).
Lemma held_push w w' c img : w_bytes w' = w_bytes w ++ img -> w_cds w' = w_cds w ++ [c] -> held w' = held w + len img + len (ce_bytes c).
Proof. unfold held. intros -> ->. rewrite map_app, concat_app, !len_app. cbn [map concat]. rewrite len_app. change (len (@nil byte)) with 0. lia. Qed.

Lemma whole_size e u c d w : entry_fine e -> unsaid e -> u <= 0xFFFFFFFF -> c < 0x100000000 -> len d <= 0xFFFFFFFF -> w_offset w <= 0xFFFFFFFF ->
  w_force_no w = false ->
  let '(r, w') := whole_write_body (measured e u c) d w in
  r = Ok tt -> held w' = held w + (local_size e false + len d + central_size e false) /\ len (w_cds w') = len (w_cds w) + 1 /\
    w_zip64 w' = w_zip64 w || (65535 <? len (w_cds w')).
Proof.
  intros EF US Hu Hc Hd Ho FN. rewrite whole_body_eq. cbv zeta. set (e' := measured e u c). set (off := w_offset w) in *.
  set (it := whole_item false e u c d off).
  assert (B : wh_big e' d = false) by (unfold wh_big, over, NON_ZIP64_MAX_SIZE; cbn; lia).
  assert (OV : over off = false) by (unfold over, NON_ZIP64_MAX_SIZE; lia). rewrite B, OV. cbn [orb andb].
  assert (WW : wh_world e' d w = w) by (unfold wh_world; fold off; now rewrite B, OV). rewrite WW.
  destruct (wh_refused e' d off) as [x|] eqn:R; [easy|].
  unfold bind. pose proof (puts_ok (head_writes (wh_lfh e' d off) (wh_e3 e' d off) ++ [d]) w) as P. unfold put_ok in P.
  destruct (puts _ w) as [[x|x|p] w1]; cbn [fst snd] in P; destruct P as (us & P); [|easy|easy].
  destruct P as [M _]. pose proof (moved_cds _ _ _ _ _ M) as C1. pose proof (moved_bytes _ _ _ _ _ M) as B1.
  pose proof (moved_zip64 _ _ _ _ _ M) as Z1.
  rewrite concat_app in B1. cbn [concat] in B1. rewrite app_nil_r in B1. fold (head_bytes (wh_lfh e' d off) (wh_e3 e' d off)) in B1.
  destruct (N.ltb_spec (fields_count_bytes (en_extra (wh_e4 e' d off))) 65536) as [L4|L4]; [|easy].
  destruct (whole_laid false e u c d off EF ltac:(lia) Hc ltac:(lia) ltac:(lia) R L4) as (a & v & f & lx & LO & HB & CB & _).
  fold it e' in LO, HB, CB. rewrite HB in B1.
  destruct (laid_size it a v f lx LO US eq_refl (fun _ => conj B OV)) as [S1 S2]. cbn [i_stream it i_entry whole_item] in S1, S2.
  rewrite push_and_check_eq. cbv zeta. rewrite FN. set (w2 := push_cd w1 (wh_cd e' d off)).
  assert (C2 : w_cds w2 = w_cds w ++ [wh_cd e' d off]) by (unfold w2; cbn; now rewrite C1).
  assert (H2 : held w2 = held w + (local_size e false + len d + central_size e false)).
  { rewrite (held_push w w2 _ _ B1 C2), CB, len_app, S1, S2. lia. }
  assert (L2 : len (w_cds w2) = len (w_cds w) + 1) by (rewrite C2, len_app; reflexivity).
  change NON_ZIP64_MAX_NUM_FILES with 65535.
  destruct (65535 <? len (w_cds w2)) eqn:CC; intros _; (split; [exact H2|split; [exact L2|]]).
  - change (w_cds (set_zip64 w2 true)) with (w_cds w2). rewrite CC, orb_true_r. reflexivity.
  - rewrite CC, orb_false_r. exact Z1.
Qed.

Lemma closed_size cd pre e body w : enc_takes cd -> handy (OpStream pre e body true) -> measured_op (OpStream pre e body true) ->
  w_force_no w = false -> w_sched w = [] -> w_offset w = len (w_bytes w) -> len (w_bytes w) + op_size (OpStream pre e body true) <= 0xFFFFFFFF ->
  let '(r, w') := run_op cd (OpStream pre e body true) w in
  held w' = held w + op_size (OpStream pre e body true) /\ len (w_cds w') = len (w_cds w) + 1 /\ w_zip64 w' = true.
Proof.
  intros T (NF & G & ND & R) (RO & US) FN CS OF LB. cbn [op_entry] in R, US. pose proof G as [EF _]. unfold op_fine in EF. cbn [op_entry] in EF.
  assert (PC : pre = true \/ en_compression e <> Deflate64) by (destruct pre; [now left|right; exact ND]).
  pose proof (stream_works cd pre e body w T EF PC R FN CS) as W.
  destruct (streamed cd pre e body w T EF PC CS) as (it & v & flag & lx & LV & IO & TX & _ & OUT).
  pose proof (run_op_step cd (OpStream pre e body true) w T G OF) as S.
  destruct (run_op cd (OpStream pre e body true) w) as [r w']. cbn [fst snd] in *. subst r.
  assert (DATA : forall it, leaves cd (w_force_no w) (OpStream pre e body true) it -> i_entry it = e /\ i_stream it = true /\ i_no64 it = false /\ i_data it = fed_bytes body).
  { intros it' LV'. rewrite FN in LV'. inversion LV' as [| |e0 b0 z o CM|e0 b0 o]; subst; cbn; repeat (split; [reflexivity|]).
    - destruct RO as [RO|RO]; [discriminate|]. destruct CM as [c _|lv c o' st K _ _]; [reflexivity|now elim K].
    - reflexivity. }
  destruct (DATA it LV) as (E1 & E2 & E3 & E4). pose proof (roomy_short e it flag lx R TX) as LX.
  assert (BND : len (w_bytes w') < 0x10000000000000000).
  { unfold stream_outcome in OUT. rewrite E3 in OUT. cbn [andb negb] in OUT. unfold i_name, i_comment in OUT. rewrite E1 in OUT. destruct R as (_ & R1 & R2).
    replace (65535 <? len (spec_extras lx)) with false in OUT by lia. replace (65527 <? len (spec_extras lx)) with false in OUT by lia.
    replace (65535 <? len (stored_bytes (en_filename e))) with false in OUT by lia.
    replace (65535 <? len (stored_bytes (en_comment e))) with false in OUT by lia.
    destruct OUT as (-> & _). rewrite !len_app, local_image_len, descriptor_image_len, E4 by exact E2. unfold i_name. rewrite E1.
    unfold op_size in LB. lia. }
  specialize (S BND). destruct S as [_ NW _|c it' img _ C B OFF LV' EL _ I64 _]; [now specialize (NW eq_refl)|].
  destruct (DATA it' LV') as (E1' & E2' & E3' & E4'). destruct EL as (a & v' & f & lx' & LO & IM & CB & _).
  destruct (laid_size it' a v' f lx' LO) as [S1 S2]; [now rewrite E1'|exact E3'|now rewrite E2'|]. rewrite E1', E2' in S1, S2.
  split; [|split].
  - rewrite (held_push w w' c img B C), IM, CB, S2. unfold item_image. rewrite !len_app, S1, E4', descriptor_image_len by exact E2'. unfold op_size. lia.
  - rewrite C, len_app. reflexivity.
  - apply I64. unfold in64. rewrite E2', E3'. reflexivity.
Qed.

Lemma dropped_size cd pre e body w : enc_takes cd -> handy (OpStream pre e body false) -> measured_op (OpStream pre e body false) ->
  w_force_no w = false -> w_sched w = [] ->
  let '(r, w') := run_op cd (OpStream pre e body false) w in
  held w' = held w + op_size (OpStream pre e body false) /\ len (w_cds w') = len (w_cds w) /\ w_zip64 w' = true.
Proof.
  intros T H (RO & US) FN CS. pose proof (handy_works cd _ w T H FN CS) as W. pose proof (dropped_zip64 cd pre e body w FN W) as Z.
  destruct H as (NF & (EF & _) & ND & R). cbn [op_entry] in R, US. unfold op_fine in EF. cbn [op_entry] in EF.
  cbn [run_op] in *. unfold bind in *. pose proof (stream_open_spec cd pre e w) as O. cbv zeta in O. rewrite FN in O. cbn [andb] in O.
  destruct (stream_open cd pre e w) as [[sw|x|p] w1]; try discriminate.
  destruct (so_refused false e) eqn:RF; [now destruct O|]. destruct O as (u & M & _ & enc & NE & ->).
  pose proof (stream_body_ok body T (opened pre false e (w_offset w) (w_offset w + len (head_bytes (so_lfh false e) (so_e3 false e))) enc) w1) as B. cbn [sw_enc opened] in B.
  assert (EN : enc = None).
  { unfold new_enc in NE. destruct pre; [now injection NE|]. destruct RO as [RO|RO]; [discriminate|]. rewrite RO in NE. now injection NE. }
  rewrite EN, feed_ops_none in *. unfold fed_ok in B.
  destruct (stream_body _ body w1) as [[sw2|x|p] w2]; try discriminate. cbn [fst snd] in *. destruct B as (u2 & nf & M2 & _).
  pose proof (moved_cds _ _ _ _ _ M) as C1. pose proof (moved_bytes _ _ _ _ _ M) as B1.
  pose proof (moved_cds _ _ _ _ _ M2) as C2. pose proof (moved_bytes _ _ _ _ _ M2) as B2.
  assert (WC : w_cds (so_world w) = w_cds w) by (unfold so_world; now destruct (w_force_no w)).
  assert (WB : w_bytes (so_world w) = w_bytes w) by (unfold so_world; now destruct (w_force_no w)).
  rewrite WC in C1. rewrite WB in B1. rewrite C1 in C2. rewrite B1 in B2.
  split; [|split; [now rewrite C2|exact Z]].
  rewrite (so_head pre false e [] [] (w_offset w) EF eq_refl RF) in B2.
  pose proof (so_texts pre false e [] [] (w_offset w)) as TX.
  apply texts_exact in TX.
  - unfold held. rewrite B2, C2, !len_app, local_image_len, TX, spec_extras_app, len_app. unfold op_size, local_size, extras_size, i_name.
    cbn [i_entry stream_item]. match goal with |- context [spec_extras (local_zip64 ?i)] => change (len (spec_extras (local_zip64 i))) with 20 end. lia.
  - apply Forall_app. split; [apply US|]. repeat constructor. intro; discriminate.
  - apply Forall_app. split; [apply US|]. repeat constructor. intro; discriminate.
Qed.

Lemma op_size_ok cd o w : enc_takes cd -> handy o -> measured_op o -> w_force_no w = false -> w_sched w = [] -> w_offset w = len (w_bytes w) ->
  len (w_bytes w) + op_size o <= 0xFFFFFFFF ->
  let '(r, w') := run_op cd o w in
  held w' = held w + op_size o /\ len (w_cds w) <= len (w_cds w') <= len (w_cds w) + 1 /\
  (len (w_cds w') <= 65535 -> w_zip64 w' = w_zip64 w || uses_zip64 o).
Proof.
  intros T H M FN CS OF LB. pose proof (handy_works cd o w T H FN CS) as W.
  destruct o as [| |cm|e d|e d|pre e body [|]].
  - destruct H as (H & _). now elim H.
  - cbn [run_op op_size uses_zip64]. unfold modify. rewrite orb_true_r. change (held (set_zip64 w true)) with (held w). cbn [w_cds set_zip64]. ands; try lia. reflexivity.
  - cbn [run_op op_size uses_zip64]. unfold modify. rewrite orb_false_r. change (held w = held w + 0 /\ len (w_cds w) <= len (w_cds w) <= len (w_cds w) + 1 /\ (len (w_cds w) <= 65535 -> w_zip64 w = w_zip64 w)). ands; try lia. reflexivity.
  - destruct M as (RO & US). cbn in RO, US. destruct H as (_ & ((EF & _) & _)). 
    cbn [run_op] in *. unfold write_entry_whole in *. cbv zeta in *. fold (measured e (len d) (crc32 d)) in *.
    replace (en_compression (measured e (len d) (crc32 d))) with Stored in * by (symmetry; exact RO).
    unfold op_fine in EF. cbn [op_entry] in EF. cbn [op_size] in *.
    pose proof (whole_size e (len d) (crc32 d) d w EF US ltac:(lia) (crc32_bound d) ltac:(lia) ltac:(lia) FN) as S.
    destruct (whole_write_body _ d w) as [r w']. cbn [fst] in W. destruct (S W) as (S1 & S2 & S3). split; [exact S1|]. split; [lia|].
    intro L. rewrite S3. cbn [uses_zip64]. now replace (65535 <? len (w_cds w')) with false by lia.
  - destruct M as (RO & US). cbn in RO, US. destruct H as (_ & ((EF & _) & _)). 
    cbn [run_op] in *. unfold write_entry_whole_precompressed in *. 
    unfold op_fine in EF. cbn [op_entry] in EF. cbn [op_size] in *. pose proof EF as [WT _]. pose proof WT as (D1 & D2 & D3 & D4 & D5 & D6 & D7).
    pose proof (whole_size e (en_uncompressed_size e) (en_crc32 e) d w EF US RO ltac:(easy) ltac:(lia) ltac:(lia) FN) as S.
    pose proof (f_equal (fun e => whole_write_body e d w) (measured_self e)) as MS. cbv beta in MS. rewrite MS in S.
    destruct (whole_write_body _ d w) as [r w']. cbn [fst] in W. destruct (S W) as (S1 & S2 & S3). split; [exact S1|]. split; [lia|].
    intro L. rewrite S3. cbn [uses_zip64]. now replace (65535 <? len (w_cds w')) with false by lia.
  - pose proof (closed_size cd pre e body w T H M FN CS OF LB) as S. destruct (run_op cd _ w) as [r w']. destruct S as (S1 & S2 & S3).
    split; [exact S1|]. split; [lia|]. rewrite S3. cbn [uses_zip64]. now rewrite orb_true_r.
  - pose proof (dropped_size cd pre e body w T H M FN CS) as S. destruct (run_op cd _ w) as [r w']. destruct S as (S1 & S2 & S3).
    split; [exact S1|]. split; [lia|]. rewrite S3. cbn [uses_zip64]. now rewrite orb_true_r.
Qed.

(** ** A session *)
Lemma ops_size_ok cd l : enc_takes cd -> Forall handy l -> Forall measured_op l -> forall w, w_force_no w = false -> w_sched w = [] -> w_offset w = len (w_bytes w) ->
  held w + ops_size l <= 0xFFFFFFFF -> len (w_cds w) + len l <= 65535 ->
  let '(xs, w') := run_ops cd l w in
  held w' = held w + ops_size l /\ w_zip64 w' = w_zip64 w || existsb uses_zip64 l /\ len (w_cds w') <= len (w_cds w) + len l.
Proof.
  intros T HA MA. induction l as [|o l IH]; intros w FN CS OF LB LN; cbn [run_ops ops_size fold_right existsb] in *.
  - rewrite orb_false_r. split; [lia|]. split; [reflexivity|]. lia.
  - inversion HA as [|? ? H HA']; subst. inversion MA as [|? ? M MA']; subst. fold (ops_size l) in *.
    replace (len (o :: l)) with (1 + len l) in * by (rewrite len_cons; lia).
    assert (HW : len (w_bytes w) <= held w) by (unfold held; lia).
    pose proof (op_size_ok cd o w T H M FN CS OF ltac:(lia)) as S.
    pose proof (grows_run_op cd o w) as EV. pose proof (run_op_keeps cd o w) as K. cbv zeta in K.
    destruct (run_op cd o w) as [r w1]. cbn [fst snd] in *. destruct S as (S1 & S2 & S3). destruct K as (KF & _ & _).
    pose proof (evol_offset _ _ EV OF) as OF1. destruct EV as (_ & _ & _ & (u & U)).
    assert (FN1 : w_force_no w1 = false) by (rewrite KF, FN; destruct H as (NF & _); destruct o; try reflexivity; now elim NF).
    assert (CS1 : w_sched w1 = []) by (rewrite CS in U; symmetry in U; now apply app_eq_nil in U).
    specialize (IH HA' MA' w1 FN1 CS1 OF1 ltac:(lia) ltac:(lia)). destruct (run_ops cd l w1) as [xs w2]. destruct IH as (I1 & I2 & I3).
    split; [lia|]. split; [|lia]. rewrite I2, S3 by lia. now rewrite orb_assoc.
Qed.
Lemma archive_end_len z n size off c : len (archive_end z n size off c) = (if z then 76 else 0) + 22 + len c.
Proof. unfold archive_end. rewrite !len_app, len_end. destruct z; [rewrite len_app, len_end64, len_loc64|]; change (len (@nil byte)) with 0; lia. Qed.

Lemma archive_calm_zip64 cd sched l : obliging sched -> w_zip64 (snd (run_archive cd sched l)) = w_zip64 (snd (run_archive cd [] l)).
Proof.
  intro S. apply obliging_steady in S. unfold run_archive. pose proof (run_ops_calm cd l (zw_new sched) S) as H.
  change (calmw (zw_new sched)) with (zw_new []) in H.
  destruct (run_ops cd l (zw_new sched)) as [xs w1], (run_ops cd l (zw_new [])) as [xs0 w10].
  destruct H as (<- & <- & S1). pose proof (wsim_close w1) as H. unfold sim_at in H.
  destruct (zw_close w1) as [r w'], (zw_close (calmw w1)) as [r0 w0].
  destruct H as (_ & _ & u & U & [(-> & <- & _)|(io & _ & F & _)]); rewrite U in S1; apply steady_app in S1 as [S2 S3].
  - reflexivity.
  - now apply (steady_faulty u io) in F.
Qed.

Lemma session_size_ok cd sched l : enc_takes cd -> obliging sched -> Forall handy l -> Forall measured_op l -> len l <= 65535 -> ops_size l <= 0xFFFFFFFF ->
  let '(xs, r, w) := run_archive cd sched l in
  xs = map (fun o => (o, Ok tt)) l /\ r = Ok tt /\ len (w_bytes w) = session_size l /\ w_zip64 w = existsb uses_zip64 l.
Proof.
  intros T OB H M LN LB. pose proof (run_archive_calm cd sched l OB) as CALM. pose proof (archive_calm_zip64 cd sched l OB) as CZ. pose proof (archive_works cd [] l T ltac:(constructor) H) as AW.
  pose proof (ops_size_ok cd l T H M (zw_new []) eq_refl eq_refl eq_refl ltac:(change (held (zw_new [])) with 0; lia) ltac:(change (len (w_cds (zw_new []))) with 0; lia)) as S.
  pose proof (cds_short_run_ops cd l T (zw_new []) ltac:(constructor)) as SH.
  pose proof (run_ops_comment cd l (zw_new [])) as CM. pose proof (run_ops_offset cd l []) as OF. cbv zeta in OF.
  unfold run_archive in *. destruct (run_ops cd l (zw_new sched)) as [xs w]. destruct (zw_close w) as [r w'].
  destruct (run_ops cd l (zw_new [])) as [xs0 w0]. cbn [snd] in *. destruct (zw_close w0) as [r0 w0'] eqn:C.
  destruct CALM as (-> & -> & CB). destruct AW as (-> & ->). split; [reflexivity|]. split; [reflexivity|].
  apply (close_ok _ _ _ SH) in C. cbv zeta in C. destruct C as (B & _ & Z). destruct S as (S1 & S2 & _). cbn [orb w_zip64 zw_new] in S2.
  change (held (zw_new [])) with 0 in S1. rewrite N.add_0_l in S1.
  assert (OV : is_over (w_offset w0) = false) by (unfold is_over, held in *; rewrite OF; lia). rewrite OV, orb_false_r, S2 in *.
  split; [|now rewrite CZ].
  rewrite CB, B, !len_app, archive_end_len, CM. unfold session_size, held in *. unfold last_comment. rewrite <- S1.
  change (w_comment (zw_new [])) with (@None bytes). destruct (existsb uses_zip64 l); lia.
Qed.

(** With the length known the round trip needs no condition on the archive. *)
Lemma sized_round_trip cd cfg sched s l : codec_ok cd -> obliging sched -> Forall handy l -> Forall measured_op l -> Forall ordinary_op l -> Forall proper l -> ordinary l ->
  entry_mem_size cfg <= 0x1000000000000 -> session_size l < 0x5000000 ->
  let '(xs, r, w) := run_archive cd sched l in
  let d := w_bytes w in
  xs = map (fun o => (o, Ok tt)) l /\ r = Ok tt /\ len d = session_size l /\
  (s_data s = d -> nofail (s_sched s) ->
   exists f, fst (file cfg s) = Ok f /\ mem_new cfg d = Ok {| m_data := d; m_file := f |} /\ f_zip64 f = existsb uses_zip64 l /\
     comment_reads_as (last_comment l) (f_comment f) /\
     Forall2 (fun o st => exists e, op_entry o = Some e /\ comes_back e st) (filter writes_entry l) (f_entries f) /\
     (forall i o data, nth_error (filter writes_entry l) (N.to_nat i) = Some o -> holds cd o data ->
        read_entry cd f i s = Ok data /\ mem_read_entry cd {| m_data := d; m_file := f |} i = Ok data)).
Proof.
  intros T OB H M Q P O EM LB. pose proof O as (LN & _).
  assert (SZ : ops_size l <= session_size l) by (unfold session_size; lia).
  pose proof (session_size_ok cd sched l (proj1 T) OB H M ltac:(lia) ltac:(lia)) as S.
  pose proof (plain_round_trip cd cfg sched s l T OB H Q P O EM) as RT. cbv zeta in RT |- *.
  destruct (run_archive cd sched l) as [[xs r] w]. destruct S as (-> & -> & S & Z). destruct RT as (_ & _ & RT). rewrite S, Z in RT.
  split; [reflexivity|]. split; [reflexivity|]. split; [exact S|]. exact (RT LB).
Qed.
