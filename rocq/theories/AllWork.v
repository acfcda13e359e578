(** On a sink without faults every handy call works; with ordinary entries the archive reads back. *)
From Verif Require Import Base BaseFacts Crc32 CrcFacts ZString ZDate Headers HeadersFacts ExtraField ExtraFieldFacts Entry IO IOFacts
  Locator LocatorFacts Reader EntryReader Writer WriterFacts WholeFacts StreamFacts SpecFormat SpecCrc SpecUtf8 SpecArchive SpecRead SpecWrite
  EntryProofs ReadProofs WriteProofs RecordFacts HistFacts CloseFacts RoundTrip TextFacts ArchiveProofs OutcomeFacts RepeatFacts WriteSamples Zip64Proofs
  SpecOutcome StreamOutcome SpecOrdinary OrdinaryProofs.
Arguments N.add : simpl never.
Arguments N.sub : simpl never.
Arguments N.mul : simpl never.

(** ** Room *)
Lemma spec_extras_app a b : spec_extras (a ++ b) = spec_extras a ++ spec_extras b.
Proof. unfold spec_extras. now rewrite map_app, concat_app. Qed.
Lemma spec_extras_cons x l : spec_extras (x :: l) = extra (spec_id x) (spec_payload x) ++ spec_extras l.
Proof. reflexivity. Qed.
Lemma len_extra id p : len (extra id p) = 4 + len p.
Proof. unfold extra. rewrite len_app. reflexivity. Qed.
Definition is_unicode (mk : unicode_field -> extra_field) : Prop := forall c t, len (spec_payload (mk (UV1 c t))) = 5 + len t.
Lemma path_unicode : is_unicode XPath.
Proof. intros c t. cbn [spec_payload]. unfold len. cbn. lia. Qed.
Lemma comment_unicode : is_unicode XComment.
Proof. intros c t. cbn [spec_payload]. unfold len. cbn. lia. Qed.
Lemma told_len mk b t xs ys : is_unicode mk -> told mk b t xs ys -> len (spec_extras ys) <= len (spec_extras xs) + 9 + len t.
Proof.
  intros U [xs' _|a crc old b' _|a v d b' _].
  - rewrite spec_extras_app, len_app, spec_extras_cons, len_app, len_extra, U. change (len (spec_extras [])) with 0. lia.
  - rewrite !spec_extras_app, !len_app, !spec_extras_cons, !len_app, !len_extra, !U. lia.
  - lia.
Qed.
Lemma spelled_len mk s xs ys : is_unicode mk -> spelled mk s xs ys -> len (spec_extras ys) <= len (spec_extras xs) + 9 + len (zs_raw s).
Proof. intros U [xs' ys' _ _ T|xs' _]; [now apply (told_len mk (stored_bytes s))|lia]. Qed.
Lemma texts_len n c f xs ys : texts n c f xs ys -> len (spec_extras ys) <= len (spec_extras xs) + 18 + len (zs_raw n) + len (zs_raw c).
Proof.
  intros [xs' _ _|xs' ys' zs _ A B]; [lia|]. apply (spelled_len _ _ _ _ path_unicode) in A. apply (spelled_len _ _ _ _ comment_unicode) in B. lia.
Qed.
Lemma local_zip64_len it : len (spec_extras (local_zip64 it)) <= 28.
Proof. unfold local_zip64. destruct (i_stream it), (i_no64 it), (i_big it), (is_over (i_off it)); cbn; lia. Qed.
Lemma roomy_short e it f lx : roomy e -> texts (en_filename e) (en_comment e) f (en_extra e ++ local_zip64 it) lx -> len (spec_extras lx) <= 65521.
Proof.
  intros (R & _) T. apply texts_len in T. rewrite spec_extras_app, len_app in T. pose proof (local_zip64_len it). lia.
Qed.

(** ** One call *)
Lemma whole_works cd o e w : enc_takes cd -> whole_call o -> op_entry o = Some e -> entry_fine e -> roomy e -> w_force_no w = false -> w_sched w = [] ->
  fst (run_op cd o w) = Ok tt.
Proof.
  intros T WC OE (_ & PF) R FN CS. pose proof (whole_outcome cd o e w T WC OE (plain_no_disks _ PF)) as (it & flag & lx & LV & OF & TX & OUT).
  pose proof (roomy_short e it flag lx R TX) as LX. apply leaves_entry in LV. rewrite LV in OE. injection OE as OE.
  unfold outcome_of in OUT. rewrite FN, !andb_false_r in OUT. unfold i_name, i_comment in OUT. rewrite OE in OUT. destruct R as (_ & R1 & R2).
  replace (65535 <? len (spec_extras lx)) with false in OUT by lia.
  replace (65535 <? len (stored_bytes (en_filename e))) with false in OUT by lia.
  replace (65535 <? len (stored_bytes (en_comment e))) with false in OUT by lia.
  apply OUT; [exact CS|right; right; lia].
Qed.
Lemma stream_works cd pre e body w : enc_takes cd -> entry_fine e -> (pre = true \/ en_compression e <> Deflate64) -> roomy e -> w_force_no w = false -> w_sched w = [] ->
  fst (run_op cd (OpStream pre e body true) w) = Ok tt.
Proof.
  intros T EF PC R FN CS. destruct (streamed cd pre e body w T EF PC CS) as (it & v & flag & lx & LV & OF & TX & _ & OUT).
  pose proof (roomy_short e it flag lx R TX) as LX. pose proof (leaves_no64 _ _ _ _ LV) as NO. apply leaves_entry in LV. injection LV as LV.
  unfold stream_outcome in OUT. rewrite NO, FN in OUT. cbn [andb negb] in OUT. unfold i_name, i_comment in OUT. rewrite <- LV in OUT. destruct R as (_ & R1 & R2).
  replace (65535 <? len (spec_extras lx)) with false in OUT by lia. replace (65527 <? len (spec_extras lx)) with false in OUT by lia.
  replace (65535 <? len (stored_bytes (en_filename e))) with false in OUT by lia.
  replace (65535 <? len (stored_bytes (en_comment e))) with false in OUT by lia.
  apply OUT.
Qed.
(** a stream that is dropped: the call that would close it is not made *)
Lemma drop_works cd pre e body w : fst (run_op cd (OpStream pre e body true) w) = Ok tt -> fst (run_op cd (OpStream pre e body false) w) = Ok tt.
Proof.
  cbn [run_op]. unfold bind. destruct (stream_open cd pre e w) as [[sw|x|p] w1]; try discriminate.
  destruct (stream_body sw body w1) as [[sw2|x|p] w2]; try discriminate. reflexivity.
Qed.
Lemma handy_works cd o w : enc_takes cd -> handy o -> w_force_no w = false -> w_sched w = [] -> fst (run_op cd o w) = Ok tt.
Proof.
  intros T (NF & (EF & _) & ND & R) FN CS. destruct o as [| |c|e d|e d|pre e body closed]; try reflexivity; cbn [op_entry] in R; unfold op_fine in EF; cbn [op_entry] in EF.
  - now apply (whole_works cd _ e).
  - now apply (whole_works cd _ e).
  - assert (PC : pre = true \/ en_compression e <> Deflate64) by (destruct pre; [now left|right; exact ND]).
    assert (W : fst (run_op cd (OpStream pre e body true) w) = Ok tt) by now apply stream_works.
    destruct closed; [exact W|now apply drop_works].
Qed.

(** ** A history *)
Lemma all_work cd l : enc_takes cd -> Forall handy l -> forall w, w_force_no w = false -> w_sched w = [] ->
  let '(xs, w') := run_ops cd l w in xs = map (fun o => (o, Ok tt)) l /\ w_force_no w' = false /\ w_sched w' = [].
Proof.
  intro T. induction 1 as [|o l H _ IH]; intros w FN CS; cbn [run_ops map]; [easy|].
  pose proof (handy_works cd o w T H FN CS) as HW. pose proof (grows_run_op cd o w) as EV. pose proof (run_op_keeps cd o w) as K. cbv zeta in K.
  destruct (run_op cd o w) as [r w1]. cbn [fst snd] in *. subst r. destruct K as (KF & _ & _). destruct EV as (_ & _ & _ & (u & U)).
  assert (FN1 : w_force_no w1 = false) by (rewrite KF, FN; destruct H as (NF & _); destruct o; try reflexivity; now elim NF).
  assert (CS1 : w_sched w1 = []) by (rewrite CS in U; symmetry in U; now apply app_eq_nil in U).
  specialize (IH w1 FN1 CS1). destruct (run_ops cd l w1) as [xs w2]. destruct IH as (-> & I2 & I3). easy.
Qed.
Lemma archive_works cd sched l : enc_takes cd -> obliging sched -> Forall handy l ->
  let '(xs, r, w) := run_archive cd sched l in xs = map (fun o => (o, Ok tt)) l /\ r = Ok tt.
Proof.
  intros T OB H. pose proof (run_archive_calm cd sched l OB) as CALM.
  pose proof (all_work cd l T H (zw_new []) eq_refl eq_refl) as AW. pose proof (cds_short_run_ops cd l T (zw_new []) ltac:(constructor)) as S.
  unfold run_archive in *. destruct (run_ops cd l (zw_new sched)) as [xs w]. destruct (zw_close w) as [r w'].
  destruct (run_ops cd l (zw_new [])) as [xs0 w0]. cbn [snd] in S. destruct (zw_close w0) as [r0 w0'] eqn:C.
  destruct CALM as (-> & -> & _). destruct AW as (-> & FN & CS). split; [reflexivity|].
  pose proof (close_calm w0 S CS) as CC. rewrite FN, andb_false_r, C in CC. now apply CC.
Qed.

(** ** Histories that leave no entry *)
Lemma dropped_zip64 cd pre e body w : w_force_no w = false -> fst (run_op cd (OpStream pre e body false) w) = Ok tt ->
  w_zip64 (snd (run_op cd (OpStream pre e body false) w)) = true.
Proof.
  intros FN. cbn [run_op]. unfold bind. pose proof (stream_open_spec cd pre e w) as O. cbv zeta in O. rewrite FN in O. cbn [andb] in O.
  destruct (stream_open cd pre e w) as [[sw|x|p] w1]; try discriminate.
  destruct (so_refused false e); [now destruct O|]. destruct O as (u & M & _).
  assert (Z : w_zip64 w1 = true) by (rewrite (moved_zip64 _ _ _ _ _ M); unfold so_world; now rewrite FN).
  pose proof (steadfast_stream_body body sw w1) as K.
  destruct (stream_body sw body w1) as [[sw2|x|p] w2]; try discriminate. intros _. cbn [snd] in *. now apply K.
Qed.
Lemma run_ops_zip64 cd l : forall w, w_zip64 w = true -> w_zip64 (snd (run_ops cd l w)) = true.
Proof.
  induction l as [|o l IH]; intros w Z; [exact Z|]. cbn [run_ops]. pose proof (run_op_keeps cd o w) as K. cbv zeta in K.
  destruct (run_op cd o w) as [r w1]. cbn [snd] in K. destruct K as (_ & _ & K). specialize (IH w1 (K Z)). now destruct (run_ops cd l w1).
Qed.
Lemma none_written cd l : Forall handy l -> filter writes_entry l = [] -> forall w, w_force_no w = false ->
  let '(xs, w') := run_ops cd l w in Forall (fun x => snd x = Ok tt) xs -> w_zip64 w' = true \/ w_bytes w' = w_bytes w.
Proof.
  induction 1 as [|o l H _ IH]; intros NW w FN; cbn [run_ops]; [now right|]. cbn [filter] in NW.
  destruct (writes_entry o) eqn:WE; [discriminate|]. specialize (IH NW).
  pose proof (run_op_keeps cd o w) as K. cbv zeta in K.
  assert (ONE : fst (run_op cd o w) = Ok tt -> w_zip64 (snd (run_op cd o w)) = true \/ w_bytes (snd (run_op cd o w)) = w_bytes w).
  { intro R. destruct o as [| |c|e d|e d|pre e body closed]; try discriminate WE; try (now right).
    cbn in WE. subst closed. left. now apply dropped_zip64. }
  destruct (run_op cd o w) as [r w1]. cbn [fst snd] in *. destruct K as (KF & _ & _).
  assert (FN1 : w_force_no w1 = false) by (rewrite KF, FN; destruct H as (NF & _); destruct o; try reflexivity; now elim NF).
  specialize (IH w1 FN1). pose proof (run_ops_zip64 cd l w1) as Z. destruct (run_ops cd l w1) as [xs w2]. cbn [snd] in Z.
  intro F. inversion F as [|a b F1 F2]; subst. cbn [snd] in F1. destruct (ONE F1) as [Y|Y]; [left; now apply Z|].
  rewrite <- Y. now apply IH.
Qed.

(** ** What comes back *)
Lemma succeeded_all l : Forall handy l -> succeeded false (map (fun o => (o, Ok tt)) l) = map (fun o => (false, o)) (filter writes_entry l).
Proof.
  induction 1 as [|o l H _ IH]; [reflexivity|]. cbn [map]. rewrite succeeded_cons. cbn [worked filter]. rewrite andb_true_r.
  replace (no_after false o) with false by (destruct H as (NF & _); destruct o; try reflexivity; now elim NF). rewrite IH.
  now destruct (writes_entry o).
Qed.

Lemma handy_good l : Forall handy l -> Forall op_good l.
Proof. intro H. eapply Forall_impl; [|exact H]. now intros o (_ & G & _). Qed.

Lemma plain_round_trip cd cfg sched s l : codec_ok cd -> obliging sched -> Forall handy l -> Forall ordinary_op l -> Forall proper l -> ordinary l ->
  entry_mem_size cfg <= 0x1000000000000 ->
  let '(xs, r, w) := run_archive cd sched l in
  let d := w_bytes w in
  xs = map (fun o => (o, Ok tt)) l /\ r = Ok tt /\
  (len d < 0x5000000 -> s_data s = d -> nofail (s_sched s) ->
   exists f, fst (file cfg s) = Ok f /\ mem_new cfg d = Ok {| m_data := d; m_file := f |} /\ f_zip64 f = w_zip64 w /\
     comment_reads_as (last_comment l) (f_comment f) /\
     Forall2 (fun o st => exists e, op_entry o = Some e /\ comes_back e st) (filter writes_entry l) (f_entries f) /\
     (forall i o data, nth_error (filter writes_entry l) (N.to_nat i) = Some o -> holds cd o data ->
        read_entry cd f i s = Ok data /\ mem_read_entry cd {| m_data := d; m_file := f |} i = Ok data)).
Proof.
  intros K OB H OO PR ORD MEM. pose proof (proj1 K) as T. pose proof (handy_good l H) as G.
  pose proof (archive_works cd sched l T OB H) as AW. pose proof (ordinary_unambiguous cd cfg sched l T G ORD MEM) as UN.
  pose proof (read_back cd cfg sched s l K G) as RB. pose proof (archive_shape cd sched l T G) as SH.
  pose proof (none_written cd l H) as NW. specialize (fun N => NW N (zw_new sched) eq_refl).
  unfold run_archive in *. destruct (run_ops cd l (zw_new sched)) as [xs w0] eqn:RO. cbn [snd] in *. destruct (zw_close w0) as [r w] eqn:CL.
  cbv zeta in *. destruct AW as (EX & ER). split; [exact EX|]. split; [exact ER|]. intros LD SD NF.
  assert (SU : succeeded false xs = map (fun o => (false, o)) (filter writes_entry l)) by (rewrite EX; now apply succeeded_all).
  assert (U : unambiguous cd cfg l xs (w_zip64 w) (w_bytes w)).
  { apply (UN ER LD). destruct (w_zip64 w) eqn:Z; [now left|]. right. destruct (filter writes_entry l) as [|o os] eqn:FW.
    - right. assert (ALL : Forall (fun x => snd x = Ok tt) xs).
      { rewrite EX. apply Forall_forall. intros x I. apply in_map_iff in I as (o & <- & _). reflexivity. }
      assert (TM : Forall (fun x => too_many (snd x) = false) xs) by (eapply Forall_impl; [|exact ALL]; now intros x ->).
      destruct (SH ER ltac:(lia)) as (its & ms & [H1 H2 H3 H4 H5 H6 H7 H8]).
      rewrite (recorded_succeeded xs TM), SU in H2. cbn [map] in H2. inversion H2; subst its. inversion H3; subst ms.
      assert (Z0 : w_zip64 w0 = false).
      { assert (S : cds_short w0).
        { pose proof (cds_short_run_ops cd l T (zw_new sched) ltac:(constructor)) as S. now rewrite RO in S. }
        rewrite ER in CL. apply (close_ok _ _ _ S) in CL. cbv zeta in CL. destruct CL as (_ & _ & CL). rewrite Z in CL. symmetry in CL. now apply orb_false_iff in CL. }
      destruct (NW eq_refl ALL) as [Y|Y]; [congruence|].
      rewrite H1, !len_app, Y. unfold archive_end. cbn [app]. rewrite len_app, len_end. change (len (w_bytes (zw_new sched))) with 0. change (len (members [])) with 0. lia.
    - left. split; [rewrite SU; discriminate|exact OO]. }
  destruct (RB ER U SD NF) as (f & F1 & F2 & F3 & F4 & F5 & F6). exists f.
  split; [exact F1|]. split; [exact F2|]. split; [exact F3|]. split; [exact F4|]. rewrite SU in *. split.
  - assert (P : Forall (fun o => ordinary_op o /\ proper o) (filter writes_entry l)).
    { apply Forall_forall. intros o I. apply filter_In in I as [I _]. rewrite Forall_forall in OO, PR. auto. }
    revert F5 P. clear. generalize (f_entries f). induction (filter writes_entry l) as [|o os IH]; intros sts F5 P; inversion F5 as [|x st xs' sts' HX F5']; subst; [constructor|].
    inversion P as [|o' os' PO P']; subst. constructor; [|now apply IH]. clear IH F5 F5' P P'.
    destruct HX as (it & LV & AS & TK). apply leaves_entry in LV. cbn [snd] in LV. exists (i_entry it). split; [exact LV|].
    destruct PO as [OO PR]. unfold ordinary_op in OO. unfold proper in PR. rewrite LV in OO, PR. destruct OO as (PN & PC & _).
    destruct TK as ((N1 & N2 & _) & (C1 & C2 & _)). { split; [apply PR|]. split; [apply PR|]. left. now split. }
    unfold as_written in AS. cbv zeta in AS. destruct AS as (_ & _ & A3 & A4 & A5 & A6 & _).
    unfold comes_back. cbv zeta. destruct PN as [PN _], PC as [PC _]. ands; auto.
  - intros i o data NE HO. apply (F6 i false o data).
    + rewrite nth_error_map, NE. reflexivity.
    + exact HO.
    + intros it LV. apply leaves_no64 in LV. unfold straight, i_swapped. rewrite LV, andb_false_r. discriminate.
Qed.
