(** ZIP64 forbidden and ZIP64 used, true sizes, refusals: the lemmas behind the property theorems. *)
From Verif Require Import Base BaseFacts Crc32 CrcFacts ZString ZDate Headers HeadersFacts ExtraField ExtraFieldFacts Entry IO IOFacts
  Locator LocatorFacts Reader EntryReader Writer WriterFacts WholeFacts StreamFacts SpecFormat SpecCrc SpecUtf8 SpecArchive SpecRead SpecWrite
  EntryProofs ReadProofs WriteProofs RecordFacts HistFacts CloseFacts RoundTrip TextFacts ArchiveProofs OutcomeFacts RepeatFacts.
Arguments N.add : simpl never.
Arguments N.sub : simpl never.

Lemma no_after_true l : fold_left no_after l true = true.
Proof. induction l as [|o l IH]; [easy|]. cbn. now destruct o. Qed.
Lemma recorded_true xs : Forall (fun x => fst x = true) (recorded true xs).
Proof.
  induction xs as [|[o r] xs IH]; [constructor|]. cbn [recorded]. apply Forall_app. split; [destruct (_ && _); repeat constructor|].
  now replace (no_after true o) with true by now destruct o.
Qed.
Lemma recorded_false xs : ~ In OpForceNoZip64 (map fst xs) -> Forall (fun x => fst x = false) (recorded false xs).
Proof.
  induction xs as [|[o r] xs IH]; intro N; [constructor|]. cbn [recorded]. cbn [map fst] in N. apply Forall_app.
  split; [destruct (_ && _); repeat constructor|].
  replace (no_after false o) with false; [apply IH; intro; apply N; now right|]. destruct o; try easy. elim N. now left.
Qed.
Lemma run_ops_map cd l : forall w, map fst (fst (run_ops cd l w)) = l.
Proof.
  induction l as [|o l IH]; intro w; [easy|]. cbn [run_ops]. destruct (run_op cd o w) as [r w1]. specialize (IH w1).
  destruct (run_ops cd l w1). cbn in *. now rewrite IH.
Qed.
Lemma Forall2_both {A B} (P : A -> Prop) (R : A -> B -> Prop) l m : Forall P l -> Forall2 R l m -> Forall2 (fun a b => P a /\ R a b) l m.
Proof. intros F F2. revert F. induction F2; intro F; constructor; inversion F; auto. Qed.
Lemma Forall2_Forall_r {A B} (P : B -> Prop) (R : A -> B -> Prop) l m : (forall a b, R a b -> P b) -> Forall2 R l m -> Forall P m.
Proof. intros I F. induction F; constructor; eauto. Qed.
Lemma len_take_min {A} n (l : list A) : len (take n l) = N.min n (len l).
Proof. rewrite take_firstn. unfold len. rewrite firstn_length. lia. Qed.

(** ** C19 *)
Lemma over_le n : is_over n = false -> n <= 0xFFFFFFFF.
Proof. unfold is_over. intro H. apply N.ltb_ge in H. exact H. Qed.
Lemma classic_no64 d it a : i_no64 it = true -> (i_no64 it = true -> i_big it = false /\ is_over (i_off it) = false) -> written_in d it a -> classic it a.
Proof.
  intros I H (v & f & lx & LO & _). destruct (H I) as [B O]. unfold classic, a_zip64, local_zip64.
  rewrite (lo_u64 _ _ _ _ _ LO), (lo_c64 _ _ _ _ _ LO), (lo_o64 _ _ _ _ _ LO), (lo_d64 _ _ _ _ _ LO). unfold in64, off64. rewrite I, B, O. cbn [negb].
  pose proof B as B'. unfold i_big in B'. apply orb_false_iff in B' as [B1 B2].
  destruct (i_stream it); cbn; ands; try reflexivity; now apply over_le.
Qed.
Lemma without_zip64 cd sched l : enc_takes cd -> Forall op_good l -> ~ In OpForceZip64 l ->
  let '(xs, r, w) := run_archive cd sched (OpForceNoZip64 :: l) in
  r = Ok tt -> len (w_bytes w) < 0x10000000000000000 ->
  w_zip64 w = false /\
  exists body its ms,
    w_bytes w = body ++ members ms ++
      end_record 0 0 (len (succeeded false xs)) (len (succeeded false xs)) (N.min (len (members ms)) 0xFFFFFFFF) (len body)
        (len (last_comment l) mod 0x10000) ++ last_comment l /\
    len (succeeded false xs) <= 65535 /\ len body <= 0xFFFFFFFF /\
    Forall2 (fun x it => leaves cd true (snd x) it) (recorded false xs) its /\
    Forall2 (fun it a => written_in body it a /\ classic it a) its ms /\
    (Forall (fun x => too_many (snd x) = false) xs -> recorded false xs = succeeded false xs).
Proof.
  intros T G NI. assert (G' : Forall op_good (OpForceNoZip64 :: l)) by (constructor; [now split|exact G]).
  pose proof (archive_shape cd sched (OpForceNoZip64 :: l) T G') as H.
  pose proof (run_ops_shut cd l NI (set_force_no (zw_new sched) true) eq_refl eq_refl) as ZF.
  pose proof (run_ops_map cd (OpForceNoZip64 :: l) (zw_new sched)) as MF.
  pose proof (cds_short_run_ops cd (OpForceNoZip64 :: l) T (zw_new sched) ltac:(constructor)) as CS.
  pose proof (run_ops_offset cd (OpForceNoZip64 :: l) sched) as OF. cbv zeta in OF.
  unfold run_archive in *.
  assert (RE : run_ops cd (OpForceNoZip64 :: l) (zw_new sched) =
    (let '(xs, w) := run_ops cd l (set_force_no (zw_new sched) true) in ((OpForceNoZip64, Ok tt) :: xs, w))) by reflexivity.
  rewrite RE in *. clear RE.
  destruct (run_ops cd l (set_force_no (zw_new sched) true)) as [xs w0]. cbn [snd fst] in *. destruct (zw_close w0) as [r w] eqn:C.
  intros -> L. destruct (H eq_refl L) as (its & ms & [H1 H2 H3 H4 H5 H6 H7 H8]).
  assert (FA : is_over (len (w_bytes w0)) = false).
  { destruct (is_over (len (w_bytes w0))) eqn:E; [|easy]. destruct (H6 eq_refl) as [_ X]. cbn [fold_left no_after] in X. rewrite no_after_true in X. discriminate. }
  pose proof (close_ok w0 w tt CS C) as (_ & _ & ZZ). rewrite ZF, OF, FA in ZZ. cbn [orb] in ZZ. split; [exact ZZ|].
  specialize (H7 ZZ). assert (LM : len ms = len (recorded false ((OpForceNoZip64, Ok tt) :: xs))).
  { unfold len. now rewrite (Forall2_len _ _ _ H2), (Forall2_len _ _ _ H3). }
  assert (LS : len (succeeded false ((OpForceNoZip64, Ok tt) :: xs)) = N.min (len ms) 65535) by (rewrite H7, len_take_min, LM; lia).
  set (ys := (OpForceNoZip64, Ok tt) :: xs) in *. exists (w_bytes w0), its, ms. apply over_le in FA. split.
  { rewrite LS. rewrite H1 at 1. unfold archive_end. rewrite ZZ. rewrite (N.min_l (len (w_bytes w0))) by exact FA. reflexivity. }
  split; [lia|]. split; [exact FA|].
  assert (NO : Forall2 (fun x it => fst x = true /\ leaves cd (fst x) (snd x) it) (recorded false ys) its) by (apply Forall2_both; [apply recorded_true|exact H2]).
  split; [eapply Forall2_weaken; [|exact NO]; cbv beta; intros x it [-> X]; exact X|]. split.
  - assert (I64 : Forall (fun it => i_no64 it = true) its).
    { eapply Forall2_Forall_r; [|exact NO]. cbv beta. intros x it [E X]. rewrite (leaves_no64 _ _ _ _ X). exact E. }
    pose proof (Forall2_both _ _ _ _ (Forall_and I64 H4) H3) as B. eapply Forall2_weaken; [|exact B]. cbv beta. intros it a ((X & Y) & W & _).
    split; [exact W|]. eapply classic_no64; eassumption.
  - intro TM. destruct (N.le_gt_cases (len ms) 65535) as [LE|GT]; [|rewrite (H8 TM GT) in ZZ; discriminate].
    rewrite H7, take_firstn, firstn_all2; [easy|]. unfold len in *. lia.
Qed.
Lemma faulty_calm (w w' : world) b u f io : moved w w' b u f -> w_sched w = [] -> faulty u io -> False.
Proof.
  intros [M _] S (ev & I & _). rewrite S in M. symmetry in M. apply app_eq_nil in M as [-> _]. destruct I.
Qed.
Lemma moved_calm (w w' : world) b u f : moved w w' b u f -> w_sched w = [] -> w_sched w' = [].
Proof. intros [M _] S. rewrite S in M. symmetry in M. now apply app_eq_nil in M as [_ ->]. Qed.
Lemma stream_refused cd pre e body w : enc_takes cd -> w_force_no w = true -> w_sched w = [] -> (pre = true \/ en_compression e <> Deflate64) ->
  exists it, leaves cd true (OpStream pre e body true) it /\ i_off it = w_offset w /\
    (i_big it || is_over (i_off it) = true ->
     fst (run_op cd (OpStream pre e body true) w) = Err (Zip64Needed LargeFile) \/
     (exists x, (x = ExtraFieldTooLarge \/ x = FileNameTooLarge) /\ run_op cd (OpStream pre e body true) w = (Err x, w))).
Proof.
  intros T FN SC ND. cbn [run_op]. pose proof (stream_open_spec cd pre e w) as O. cbv zeta in O. rewrite FN in O.
  assert (SW : so_world w = w) by (unfold so_world; now rewrite FN). rewrite SW in O.
  assert (NE : exists enc, new_enc cd pre (en_compression e) = Ok enc).
  { unfold new_enc. destruct pre; [now exists None|]. destruct ND as [?|ND]; [discriminate|]. destruct (en_compression e); try congruence; eexists; reflexivity. }
  destruct NE as (enc & NE).
  destruct (feed_ops enc body) as [out enc'] eqn:FO. set (z := out ++ concat (fin_writes enc')).
  set (it := stream_item true e (sw_usize pre e (fed_bytes body)) (sw_crc pre e (fed_bytes body)) z (w_offset w)).
  exists it. split.
  { unfold it, z, stream_item. unfold sw_usize, sw_crc. destruct pre.
    + cbn in NE. okinv NE. subst enc. rewrite feed_ops_none in FO. injection FO as <- <-. cbn [fin_writes concat]. rewrite app_nil_r. apply leaves_stream_pre.
    + apply leaves_stream. unfold new_enc in NE.
      destruct (en_compression e) eqn:CE; try discriminate; okinv NE; subst enc.
      { rewrite feed_ops_none in FO. injection FO as <- <-. cbn [fin_writes concat]. rewrite app_nil_r. now constructor. }
      all: pose proof (feed_ops_runs cd T body (enc_init cd (en_compression e) LDefault)) as FR; rewrite CE, FO in FR; destruct FR as (st' & -> & FR);
        cbn [fin_writes concat]; rewrite app_nil_r; eapply comp_encoded; [discriminate|discriminate|exact FR]. }
  split; [reflexivity|]. intro BIG. destruct (stream_open cd pre e w) as [r w1] eqn:SO.
  cbn [andb] in O. destruct (so_big e); [destruct O as [-> ->]; left; unfold bind; now rewrite SO|].
  destruct (so_refused true e) as [x|] eqn:R.
  { destruct O as [-> ->]. right. exists x. split; [|unfold bind; now rewrite SO]. unfold so_refused in R. cbv zeta in R.
    repeat match type of R with (if ?b then _ else _) = _ => destruct b end; try discriminate; injection R as <-; tauto. }
  left. unfold bind at 1. rewrite SO. clear SO. destruct O as (us & O). destruct r as [sw|x|p].
  2:{ destruct O as (io & p & _ & _ & M & F). exfalso. eapply faulty_calm; eassumption. }
  2:{ destruct O as (_ & -> & D & _). destruct ND as [?|ND]; [discriminate|contradiction]. }
  destruct O as (M1 & _ & enc0 & NE0 & ->). rewrite NE in NE0. injection NE0 as <-. destruct (so_count _ _ R) as [C1 _].
  set (head := head_bytes (so_lfh true e) (so_e3 true e)) in *. set (off := w_offset w) in *. set (doff := off + len head) in *.
  pose proof (moved_offset _ _ _ _ _ M1) as MO1. fold off in MO1. pose proof (moved_calm _ _ _ _ _ M1 SC) as S1.
  pose proof (stream_body_ok body T (opened pre true e off doff enc) w1) as B. cbn [sw_enc opened] in B. rewrite FO in B. unfold fed_ok in B.
  unfold bind at 1. destruct (stream_body (opened pre true e off doff enc) body w1) as [[sw2|x|p] w2]; cbn [fst snd] in B; destruct B as (u2 & B); [| |easy].
  2:{ destruct B as (io & p & f & _ & _ & M & F). exfalso. eapply faulty_calm; eassumption. }
  destruct B as (nf & M2 & ->). rewrite content_fed. pose proof (moved_offset _ _ _ _ _ M2) as MO2. rewrite MO1 in MO2. pose proof (moved_calm _ _ _ _ _ M2 S1) as S2.
  set (sw := fed (opened pre true e off doff enc) (fed_bytes body) enc').
  rewrite stream_close_eq; [|exact C1|reflexivity]. change (sw_enc sw) with enc'.
  unfold bind. pose proof (puts_ok (fin_writes enc') w2) as P. unfold put_ok in P.
  destruct (puts (fin_writes enc') w2) as [[x|x|p] w3]; cbn [fst snd] in P; destruct P as (u3 & P); [| |easy].
  2:{ destruct P as (io & p & _ & _ & M & F). exfalso. eapply faulty_calm; eassumption. }
  destruct P as [M3 _]. pose proof (moved_offset _ _ _ _ _ M3) as MO3. rewrite MO2 in MO3. fold z in MO3.
  assert (CS : w_offset w3 - doff = len z) by (unfold z, doff; rewrite MO3, len_app; lia).
  unfold close_rest. cbv zeta. change (sw_data_offset sw) with doff. change (sw_force_no sw) with true. rewrite CS. cbn [andb].
  assert (SB : sc_big sw (len z) = true); [|now rewrite SB].
  assert (E1 : en_uncompressed_size (sc_e1 sw) = i_usize it).
  { unfold sc_e1, sw, fed, sw_advance, opened, it, sw_usize. cbn [sw_pre sw_entry sw_uoffset i_usize stream_item]. destruct pre; [|reflexivity].
    unfold so_e3, so_e2, add_unicode_fields. destruct (utf8_flag _); reflexivity. }
  unfold sc_big. rewrite E1. exact BIG.
Qed.

(** ** C20 *)
Lemma told_it d it a : i_no64 it = false -> written_in d it a -> told64 it a.
Proof.
  intros NO (v & f & lx & LO & _). unfold told64.
  assert (Z : a_zip64 a = if in64 it || off64 it then
    [zip64_extra (when (in64 it) (i_usize it)) (when (in64 it) (i_csize it)) (when (off64 it) (i_off it))] else []).
  { unfold a_zip64, zip64_extra. rewrite (lo_u64 _ _ _ _ _ LO), (lo_c64 _ _ _ _ _ LO), (lo_o64 _ _ _ _ _ LO), (lo_d64 _ _ _ _ _ LO),
      (lo_usize _ _ _ _ _ LO), (lo_csize _ _ _ _ _ LO), (lo_offset _ _ _ _ _ LO).
    unfold put_usize, put_csize, i_swapped. rewrite NO, andb_false_r. cbn [when]. now destruct (in64 it), (off64 it). }
  assert (IN : forall x, a_zip64 a = [x] -> In x (a_extras a)).
  { intros x E. unfold a_extras. rewrite E. apply in_or_app. right. now left. }
  unfold in64, off64 in Z. rewrite NO in Z. cbn [negb] in Z. split; intro O.
  - assert (B : i_big it = true) by exact O. rewrite B in Z.
    assert (E : exists o, a_zip64 a = [zip64_extra (Some (i_usize it)) (Some (i_csize it)) o]).
    { destruct (i_stream it); cbn in Z; eexists; exact Z. }
    destruct E as (o & E). exists o. auto.
  - rewrite O in Z. assert (E : exists u c, a_zip64 a = [zip64_extra u c (Some (i_off it))]).
    { destruct (i_stream it); [|rewrite orb_true_r in Z]; cbn in Z; eexists _, _; exact Z. }
    destruct E as (u & c & E). exists u, c. auto.
Qed.
Lemma never_too_many cd l : enc_takes cd -> Forall op_good l -> ~ In OpForceNoZip64 l -> forall w, w_offset w = len (w_bytes w) -> w_force_no w = false ->
  let '(xs, w') := run_ops cd l w in len (w_bytes w') < 0x10000000000000000 -> Forall (fun x => too_many (snd x) = false) xs.
Proof.
  intros T GS. induction GS as [|o l G _ IH]; intros NI w OF FN; cbn [run_ops]; [constructor|].
  pose proof (run_op_step cd o w T G OF) as S. pose proof (grows_run_op cd o w) as EV. pose proof (run_op_keeps cd o w) as K. cbv zeta in K.
  destruct (run_op cd o w) as [r w1]. cbn [snd] in EV, K. destruct K as (KF & _ & _).
  pose proof (evol_offset _ _ EV OF) as OF1.
  assert (FN1 : w_force_no w1 = false) by (rewrite KF, FN; destruct o; try reflexivity; elim NI; now left).
  specialize (IH ltac:(intro; apply NI; now right) w1 OF1 FN1). pose proof (evol_run_ops cd l w1) as EV2. destruct (run_ops cd l w1) as [xs w2]. cbn [snd] in EV2.
  intro LB. constructor; [|now apply IH]. cbn [snd].
  destruct (S ltac:(destruct EV2 as ((b & B & _) & _); rewrite B, len_app in LB; lia)) as [_ _ X|c it img _ _ _ _ _ _ _ _ X]; [exact X|].
  rewrite FN, andb_false_r in X. destruct X as [X _]. now destruct r as [|[]|].
Qed.
Lemma with_zip64 cd sched l : enc_takes cd -> Forall op_good l -> ~ In OpForceNoZip64 l ->
  let '(xs, r, w) := run_archive cd sched l in
  r = Ok tt -> len (w_bytes w) < 0x10000000000000000 ->
  recorded false xs = succeeded false xs /\
  exists body its ms, w_bytes w = body ++ members ms ++ archive_end (w_zip64 w) (len ms) (len (members ms)) (len body) (last_comment l) /\
    Forall2 (fun x it => leaves cd false (snd x) it) (succeeded false xs) its /\
    Forall2 (fun it a => written_in body it a /\ told64 it a) its ms /\
    (Exists (fun it => is_over (i_usize it) || is_over (i_csize it) || is_over (i_off it) = true) its \/ is_over (len body) = true \/ 65535 < len ms ->
     w_zip64 w = true).
Proof.
  intros T G NI. pose proof (archive_shape cd sched l T G) as H.
  pose proof (run_ops_map cd l (zw_new sched)) as MF.
  pose proof (run_ops_force cd l (zw_new sched)) as FN.
  unfold run_archive in *. destruct (run_ops cd l (zw_new sched)) as [xs w0] eqn:RO. cbn [fst snd] in *. destruct (zw_close w0) as [r w].
  intros R L. destruct (H R L) as (its & ms & [H1 H2 H3 H4 H5 H6 H7 H8]).
  assert (TM : Forall (fun x => too_many (snd x) = false) xs) .
  { pose proof (never_too_many cd l T G NI (zw_new sched) eq_refl eq_refl) as NT. rewrite RO in NT. apply NT.
    rewrite H1, len_app in L. lia. }
  assert (RS : recorded false xs = succeeded false xs).
  { now apply recorded_succeeded. }
  split; [exact RS|]. rewrite RS in *. exists (w_bytes w0), its, ms. split; [exact H1|].
  rewrite <- MF in NI. pose proof (recorded_false xs NI) as RF. rewrite RS in RF.
  assert (NO : Forall2 (fun x it => fst x = false /\ leaves cd (fst x) (snd x) it) (succeeded false xs) its) by (apply Forall2_both; assumption).
  split; [eapply Forall2_weaken; [|exact NO]; cbv beta; intros x it [-> X]; exact X|].
  assert (I64 : Forall (fun it => i_no64 it = false) its).
  { eapply Forall2_Forall_r; [|exact NO]. cbv beta. intros x it [E X]. now rewrite (leaves_no64 _ _ _ _ X). }
  split.
  - eapply Forall2_weaken; [|exact (Forall2_both _ _ _ _ I64 H3)]. cbv beta. intros it a (X & W & _). split; [exact W|]. eapply told_it; eassumption.
  - intros [E|[E|E]]; [|now apply H6|now apply H8].
    apply Exists_exists in E as (it & I & E). rewrite Forall_forall in H5, I64. apply (H5 it I). specialize (I64 it I).
    unfold in64, off64, i_big. rewrite I64. cbn [negb]. destruct (i_stream it); [reflexivity|exact E].
Qed.

(** ** C21 *)
Lemma Forall2_trans3 {A B C} (R : A -> B -> Prop) (S : B -> C -> Prop) l m n : Forall2 R l m -> Forall2 S m n ->
  Forall2 (fun a c => exists b, R a b /\ S b c) l n.
Proof.
  intro F. revert n. induction F as [|a b l m H F IH]; intros n G; inversion G; subst; constructor; eauto.
Qed.
Lemma stream_truth cd sched l : enc_takes cd -> Forall op_good l ->
  let '(xs, r, w) := run_archive cd sched l in
  r = Ok tt -> len (w_bytes w) < 0x10000000000000000 ->
  exists body ms, w_bytes w = body ++ members ms ++ archive_end (w_zip64 w) (len ms) (len (members ms)) (len body) (last_comment l) /\
    Forall2 (fun x a => forall e fed, snd x = OpStream false e fed true ->
      exists z off, compressed cd (en_compression e) (fed_bytes fed) z /\ written_in body (streamed (fst x) e (fed_bytes fed) z off) a /\
        a_crc a = crc32_spec (fed_bytes fed) /\
        (fst x = false \/ len z = len (fed_bytes fed) -> a_usize a = len (fed_bytes fed) /\ a_csize a = len z) /\
        (fst x = true -> a_usize a = len z /\ a_csize a = len (fed_bytes fed)))
      (recorded false xs) ms.
Proof.
  intros T G. pose proof (archive_shape cd sched l T G) as H. destruct (run_archive cd sched l) as [[xs r] w]. intros R L.
  destruct (H R L) as (its & ms & [H1 H2 H3 _ _ _ _ _]). eexists _, ms. split; [exact H1|].
  eapply Forall2_weaken; [|exact (Forall2_trans3 _ _ _ _ _ H2 H3)]. cbv beta. intros [no64 o] a (it & LV & (W & _)) e fed E. cbn [fst snd] in *. subst o.
  remember (OpStream false e fed true) as o eqn:EO. destruct LV as [e0 data z off C|e0 z off|e0 body0 z off C|e0 body0 off]; try discriminate.
  injection EO as -> ->. exists z, off. split; [exact C|]. split; [exact W|].
  destruct W as (v & f & lx & LO & _). rewrite (lo_crc _ _ _ _ _ LO), (lo_usize _ _ _ _ _ LO), (lo_csize _ _ _ _ _ LO).
  unfold put_usize, put_csize, i_swapped, i_csize. cbn [i_stream i_no64 i_usize i_data i_crc andb]. split; [reflexivity|].
  destruct no64; split; [intros [?|?]; [discriminate|now split]| |intros _; now split|discriminate]. now split.
Qed.

Lemma succeeded_keep xs : forall no64, succeeded no64 (filter (fun x => negb (dropped (fst x))) xs) = succeeded no64 xs.
Proof.
  induction xs as [|[o r] xs IH]; intro no64; [easy|]. cbn [filter fst]. destruct o; cbn [dropped negb succeeded writes_entry andb app no_after]; rewrite ?IH; try reflexivity.
  destruct closed; cbn [negb succeeded writes_entry andb app no_after]; now rewrite IH.
Qed.
Lemma succeeded_drop xs : forall no64, succeeded no64 (filter (fun x => negb (refused x)) xs) = succeeded no64 xs.
Proof.
  induction xs as [|[o r] xs IH]; intro no64; [easy|]. cbn [filter]. unfold refused at 1. cbn [fst snd].
  destruct o; cbn [writes_entry]; try (destruct closed); destruct r; cbn [worked negb andb succeeded writes_entry app no_after]; now rewrite ?IH.
Qed.
Lemma succeeded_ops xs : forall no64, map snd (succeeded no64 xs) = map fst (filter (fun x => writes_entry (fst x) && worked (snd x)) xs).
Proof.
  induction xs as [|[o r] xs IH]; intro no64; [easy|]. cbn [succeeded filter fst snd]. rewrite map_app, IH. now destruct (_ && _).
Qed.

Lemma local_image_len it v f lx : len (local_image it v f lx) = 30 + len (i_name it) + len (spec_extras lx).
Proof. unfold local_image. rewrite !len_app. match goal with |- len ?h + _ = _ => change (len h) with 30 end. lia. Qed.
Lemma header_places cd d x st : entry_full cd d x st ->
  exists it a v f lx, leaves cd (fst x) (snd x) it /\ laid_out it a v f lx /\ reported a st /\ header_tells d it a v f lx st.
Proof.
  intros (it & a & v & f & lx & LV & LO & SI & RP & AW). exists it, a, v, f, lx. split; [exact LV|]. split; [exact LO|]. split; [exact RP|].
  destruct SI as (b & t & E & LB).
  assert (OFF : st_file_offset st = i_off it) by apply AW.
  destruct (lo_fits _ _ _ _ _ LO) as (N1 & N2 & N3 & N4).
  assert (DS : data_start d (st_file_offset st) = st_file_offset st + len (local_image it v f lx)).
  { rewrite OFF, <- LB, E, local_image_len. unfold local_image. rewrite <- app_assoc. rewrite data_start_at; [lia|assumption|assumption]. }
  split; [|split].
  - exists b, (descriptor_image it ++ t). split; [exact E|]. split; [congruence|exact DS].
  - intro LX. rewrite DS, local_image_len. destruct RP as (_ & _ & _ & _ & _ & _ & _ & _ & _ & _ & _ & _ & _ & HS). rewrite HS, (lo_name _ _ _ _ _ LO). lia.
  - intro LZ. destruct (lo_extras _ _ _ _ _ LO) as (bf & af & EL & B & A). unfold a_extras. rewrite B, A, <- LZ.
    destruct (negb (in64 it) && off64 it) eqn:X; [|now rewrite app_nil_r]. exfalso.
    apply andb_true_iff in X as [X1 X2]. apply negb_true_iff in X1. unfold a_zip64 in LZ.
    rewrite (lo_u64 _ _ _ _ _ LO), (lo_c64 _ _ _ _ _ LO), (lo_o64 _ _ _ _ _ LO), X1, X2 in LZ. cbn [orb] in LZ.
    unfold local_zip64 in LZ. unfold in64 in X1. unfold off64 in X2.
    destruct (i_stream it); [congruence|]. rewrite X1 in LZ. discriminate.
Qed.

(** ** Reading archives back, with the conditions bundled *)
Lemma read_back cd cfg sched s l : codec_ok cd -> Forall op_good l ->
  let '(xs, r, w) := run_archive cd sched l in
  let d := w_bytes w in
  r = Ok tt -> unambiguous cd cfg l xs (w_zip64 w) d -> s_data s = d -> nofail (s_sched s) ->
  exists f, fst (file cfg s) = Ok f /\ mem_new cfg d = Ok {| m_data := d; m_file := f |} /\ f_zip64 f = w_zip64 w /\
    comment_reads_as (last_comment l) (f_comment f) /\
    Forall2 (fun x st => exists it, leaves cd (fst x) (snd x) it /\ as_written d it st /\ texts_kept it st) (succeeded false xs) (f_entries f) /\
    (forall i no64 o data, nth_error (succeeded false xs) (N.to_nat i) = Some (no64, o) -> holds cd o data ->
       (forall it, leaves cd no64 o it -> straight it) ->
       read_entry cd f i s = Ok data /\ mem_read_entry cd {| m_data := d; m_file := f |} i = Ok data).
Proof.
  intros K G. pose proof (round_trip cd cfg sched s l K G) as H. destruct (run_archive cd sched l) as [[xs r] w]. cbv zeta in *.
  intros R (U1 & U2 & U3 & U4 & U5) SD NF. now apply H.
Qed.
Lemma read_back_headers cd cfg sched s l : codec_ok cd -> Forall op_good l ->
  let '(xs, r, w) := run_archive cd sched l in
  let d := w_bytes w in
  r = Ok tt -> unambiguous cd cfg l xs (w_zip64 w) d -> s_data s = d -> nofail (s_sched s) ->
  exists f, fst (file cfg s) = Ok f /\
    Forall2 (fun x st => exists it a v fl lx, leaves cd (fst x) (snd x) it /\ laid_out it a v fl lx /\ reported a st /\ header_tells d it a v fl lx st)
      (succeeded false xs) (f_entries f).
Proof.
  intros K G. pose proof (round_trip_full cd cfg sched s l K G) as H. destruct (run_archive cd sched l) as [[xs r] w]. cbv zeta in *.
  intros R (U1 & U2 & U3 & U4 & U5) SD NF. destruct (H R U1 U2 U3 U4 SD NF U5) as (f & F & _ & _ & _ & F2 & _).
  exists f. split; [exact F|]. eapply Forall2_weaken; [|exact F2]. intros x st. apply header_places.
Qed.

Lemma leaves_entry cd no64 o it e : leaves cd no64 o it -> op_entry o = Some e -> i_entry it = e.
Proof. intros L E. destruct L; cbn in E; injection E as <-; reflexivity. Qed.
Lemma texts_read_back cd cfg sched s l : codec_ok cd -> Forall op_good l ->
  let '(xs, r, w) := run_archive cd sched l in
  let d := w_bytes w in
  r = Ok tt -> unambiguous cd cfg l xs (w_zip64 w) d -> s_data s = d -> nofail (s_sched s) ->
  exists f, fst (file cfg s) = Ok f /\
    Forall2 (fun x st => forall e, op_entry (snd x) = Some e ->
      stored_bytes (en_filename (st_entry st)) = stored_bytes (en_filename e) /\ stored_bytes (en_comment (st_entry st)) = stored_bytes (en_comment e) /\
      (texts_clear e -> same_text (en_filename e) (en_filename (st_entry st)) /\ same_text (en_comment e) (en_comment (st_entry st))))
    (succeeded false xs) (f_entries f).
Proof.
  intros K G. pose proof (read_back cd cfg sched s l K G) as H. destruct (run_archive cd sched l) as [[xs r] w]. cbv zeta in *.
  intros R U SD NF. destruct (H R U SD NF) as (f & F & _ & _ & _ & F2 & _). exists f. split; [exact F|].
  eapply Forall2_weaken; [|exact F2]. intros x st (it & LV & AW & TK) e E. pose proof (leaves_entry _ _ _ _ _ LV E) as IE.
  destruct AW as (A1 & A2 & _). unfold i_name, i_comment, texts_kept in *. rewrite IE in *. auto.
Qed.
Lemma comment_read_back cd cfg sched s l : codec_ok cd -> Forall op_good l ->
  let '(xs, r, w) := run_archive cd sched l in
  let d := w_bytes w in
  r = Ok tt -> unambiguous cd cfg l xs (w_zip64 w) d -> s_data s = d -> nofail (s_sched s) ->
  exists f, fst (file cfg s) = Ok f /\ zs_raw (f_comment f) = last_comment l /\ zs_alt (f_comment f) = None /\
    (SpecUtf8.is_utf8 (last_comment l) -> zs_enc (f_comment f) = EUtf8).
Proof.
  intros K G. pose proof (read_back cd cfg sched s l K G) as H. destruct (run_archive cd sched l) as [[xs r] w]. cbv zeta in *.
  intros R U SD NF. destruct (H R U SD NF) as (f & F & _ & _ & C & _). exists f. split; [exact F|]. now destruct C.
Qed.
Lemma read_back_others cd cfg sched s l : codec_ok cd -> Forall op_good l ->
  let '(xs, r, w) := run_archive cd sched l in
  let d := w_bytes w in
  let ys := filter (fun x => negb (refused x)) xs in
  r = Ok tt -> unambiguous cd cfg l xs (w_zip64 w) d -> s_data s = d -> nofail (s_sched s) ->
  exists f, fst (file cfg s) = Ok f /\
    Forall2 (fun x st => exists it, leaves cd (fst x) (snd x) it /\ as_written d it st /\ texts_kept it st) (succeeded false ys) (f_entries f) /\
    map snd (succeeded false ys) = map fst (filter (fun x => writes_entry (fst x) && worked (snd x)) xs) /\
    (forall i no64 o data, nth_error (succeeded false ys) (N.to_nat i) = Some (no64, o) -> holds cd o data ->
       (forall it, leaves cd no64 o it -> straight it) -> read_entry cd f i s = Ok data).
Proof.
  intros K G. pose proof (read_back cd cfg sched s l K G) as H. destruct (run_archive cd sched l) as [[xs r] w]. cbv zeta in *.
  intros R U SD NF. destruct (H R U SD NF) as (f & F & _ & _ & _ & F2 & RE). exists f. split; [exact F|]. rewrite succeeded_drop.
  split; [exact F2|]. split; [apply succeeded_ops|]. intros i no64 o data I HO ST. apply (RE i no64 o data I HO ST).
Qed.
Lemma read_back_dropped cd cfg sched s l : codec_ok cd -> Forall op_good l ->
  let '(xs, r, w) := run_archive cd sched l in
  let d := w_bytes w in
  let ys := filter (fun x => negb (dropped (fst x))) xs in
  r = Ok tt -> unambiguous cd cfg l xs (w_zip64 w) d -> s_data s = d -> nofail (s_sched s) ->
  exists f, fst (file cfg s) = Ok f /\
    Forall2 (fun x st => exists it, leaves cd (fst x) (snd x) it /\ as_written d it st /\ texts_kept it st) (succeeded false ys) (f_entries f) /\
    (forall i no64 o data, nth_error (succeeded false ys) (N.to_nat i) = Some (no64, o) -> holds cd o data ->
       (forall it, leaves cd no64 o it -> straight it) -> read_entry cd f i s = Ok data).
Proof.
  intros K G. pose proof (read_back cd cfg sched s l K G) as H. destruct (run_archive cd sched l) as [[xs r] w]. cbv zeta in *.
  intros R U SD NF. destruct (H R U SD NF) as (f & F & _ & _ & _ & F2 & RE). exists f. split; [exact F|]. rewrite succeeded_keep.
  split; [exact F2|]. intros i no64 o data I HO ST. apply (RE i no64 o data I HO ST).
Qed.
Lemma whole_refused cd o e w : enc_takes cd -> whole_call o -> op_entry o = Some e -> Forall no_disk (en_extra e) -> w_force_no w = true ->
  exists it, leaves cd true o it /\ i_off it = w_offset w /\
    (i_big it || is_over (i_off it) = true -> run_op cd o w = (Err (Zip64Needed LargeFile), w)).
Proof.
  intros T W E ND FN. destruct (whole_outcome cd o e w T W E ND) as (it & flag & lx & LV & OF & _ & OC). rewrite FN in LV. exists it.
  split; [exact LV|]. split; [exact OF|]. intro B. unfold outcome_of in OC. rewrite B, FN in OC. cbn [andb] in OC.
  destruct (run_op cd o w) as [r w']. cbn [fst snd] in OC. destruct OC as [-> ->]. reflexivity.
Qed.
