(** The archive of a session, byte for byte. *)
From Verif Require Import Base BaseFacts Crc32 CrcFacts Utf8 Utf8Facts ZString ZDate Headers ExtraField Entry IO IOFacts Reader EntryReader Writer WriterFacts OpenFacts TameFacts
  SpecFormat SpecCrc SpecUtf8 SpecArchive SpecRead SpecWrite WriteProofs RecordFacts HistFacts CloseFacts RoundTrip TextFacts ArchiveProofs Zip64Proofs StreamWalk
  SpecOrdinary AllWork SpecSize SizeProofs SpecImage ChainFacts.
Arguments N.add : simpl never.
Arguments N.sub : simpl never.

(** ** Fields *)
Record chooses (mk : unicode_field -> extra_field) (sel : extra_field -> option unicode_field) : Prop := {
  ch_mk : forall u, sel (mk u) = Some u;
  ch_some : forall x u, sel x = Some u -> x = mk u }.
Lemma chooses_path : chooses XPath path_of.
Proof. split; [reflexivity|]. intros x u. destruct x; cbn; try discriminate. congruence. Qed.
Lemma chooses_note : chooses XComment note_of.
Proof. split; [reflexivity|]. intros x u. destruct x; cbn; try discriminate. congruence. Qed.
Lemma none_sel mk sel l : chooses mk sel -> none_of mk l -> Forall (fun x => sel x = None) l.
Proof.
  intros C. induction 1 as [|x l H _ IH]; constructor; [|exact IH]. destruct (sel x) as [u|] eqn:E; [|reflexivity]. elim (H u). now apply C.
Qed.
Lemma put_field_app mk sel b t p q : Forall (fun x => sel x = None) p -> put_field mk sel b t (p ++ q) = p ++ put_field mk sel b t q.
Proof. induction 1 as [|x p H _ IH]; [reflexivity|]. cbn. now rewrite H, IH. Qed.
Lemma told_put mk sel b t xs ys : chooses mk sel -> told mk b t xs ys -> ys = put_field mk sel b t xs.
Proof.
  intros C T. destruct T as [xs H|p crc old q H|p v d q H]; apply (none_sel _ _ _ C) in H.
  - rewrite <- (app_nil_r xs) at 2. rewrite put_field_app by exact H. reflexivity.
  - rewrite put_field_app by exact H. cbn. now rewrite (ch_mk _ _ C).
  - rewrite put_field_app by exact H. cbn. now rewrite (ch_mk _ _ C).
Qed.
Lemma spelled_put mk sel s xs ys : chooses mk sel -> spelled mk s xs ys -> ys = put_text mk sel s xs.
Proof.
  intros C S. unfold put_text. destruct S as [xs ys E NE T|xs [H|H]].
  - rewrite E. destruct (zs_raw s) eqn:R; [contradiction|]. now apply (told_put _ _ _ _ _ _ C).
  - now destruct (zs_enc s).
  - rewrite H. now destruct (zs_enc s).
Qed.
Lemma texts_put e f xs ys : texts (en_filename e) (en_comment e) f xs ys -> f = plain_entry e /\
  ys = if plain_entry e then xs else put_text XComment note_of (en_comment e) (put_text XPath path_of (en_filename e) xs).
Proof.
  unfold plain_entry. destruct 1 as [xs P1 P2|xs ys zs NP S1 S2].
  - apply is_plain_iff in P1, P2. now rewrite P1, P2.
  - assert (E : is_plain (en_filename e) && is_plain (en_comment e) = false).
    { apply not_true_iff_false. intro H. apply andb_true_iff in H as [H1 H2]. apply NP. split; now apply is_plain_iff. }
    rewrite E. split; [reflexivity|]. rewrite <- (spelled_put _ _ _ _ _ chooses_path S1). exact (spelled_put _ _ _ _ _ chooses_note S2).
Qed.
Lemma directory_name_iff s : directory_name s = true <-> names_directory s.
Proof.
  unfold directory_name, names_directory. destruct (zs_enc s); [|split; [|intros [? _]]; discriminate]. split.
  - intro H. split; [reflexivity|]. exists (rev (tl (rev (zs_raw s)))). rewrite <- (rev_involutive (zs_raw s)) at 1. destruct (rev (zs_raw s)) as [|b r]; [discriminate|].
    cbn. destruct b; try discriminate. reflexivity.
  - intros (_ & p & ->). rewrite rev_app_distr. reflexivity.
Qed.
Lemma needs_version e v : needs e v -> v = version_of e.
Proof.
  unfold version_of. intros [[H ->]|[H ->]]; destruct (directory_name (en_filename e)) eqn:D; try reflexivity.
  - apply directory_name_iff in H. congruence.
  - apply directory_name_iff in D. contradiction.
Qed.
Definition is64 (x : extra_field) : bool := match x with XZip64 _ => true | _ => false end.
Lemma plain_is64 l : Forall plain_field l -> filter is64 l = [].
Proof. induction 1 as [|x l H _ IH]; [reflexivity|]. cbn. destruct x; [contradiction|..]; exact IH. Qed.
Lemma in_local64 it : local_zip64 it = [] /\ in64 it = false \/ exists z, local_zip64 it = [XZip64 z] /\ in64 it = true.
Proof. unfold local_zip64, in64. destruct (i_stream it); [destruct (i_no64 it)|destruct (i_big it)]; cbn; first [left; split; reflexivity|right; eexists; split; reflexivity]. Qed.
Lemma local_is64 it : filter is64 (local_zip64 it) = local_zip64 it.
Proof. destruct (in_local64 it) as [[-> _]|(z & -> & _)]; reflexivity. Qed.
Lemma no64_same c l : filter is64 l = [] -> map (fun x => match x with XZip64 _ => c | _ => x end) l = l.
Proof. induction l as [|x l IH]; [reflexivity|]. cbn. destruct x; cbn; try discriminate; intro H; now rewrite IH. Qed.

(** ** One entry *)
Lemma laid_image it a v f lx : laid_out it a v f lx -> Forall plain_field (en_extra (i_entry it)) ->
  v = version_of (i_entry it) /\ f = plain_entry (i_entry it) /\ lx = local_fields it /\ member_record a = record_bytes it.
Proof.
  intros LO PF. pose proof (needs_version _ _ (lo_version _ _ _ _ _ LO)) as V. destruct (texts_put _ _ _ _ (lo_local _ _ _ _ _ LO)) as [F L].
  fold (local_fields it) in L. split; [exact V|]. split; [exact F|]. split; [exact L|].
  assert (X : a_extras a = central_fields it).
  { destruct (lo_extras _ _ _ _ _ LO) as (b & t & EL & EB & EA).
    assert (AZ : all_zip64 (local_zip64 it)) by (unfold all_zip64; destruct (in_local64 it) as [[-> _]|(z & -> & _)]; [auto|eauto]).
    destruct (texts_split _ _ _ _ (local_zip64 it) lx AZ PF (lo_local _ _ _ _ _ LO)) as (b0 & t0 & EL0 & P1 & P2).
    assert (FL : filter is64 b = [] /\ filter is64 t = []).
    { pose proof (f_equal (filter is64) EL) as E. rewrite EL0, !filter_app, (plain_is64 _ P1), (plain_is64 _ P2), local_is64, app_nil_r in E. cbn [app] in E.
      apply (f_equal (@length _)) in E. rewrite !app_length in E. destruct (filter is64 b), (filter is64 t); cbn in E; try lia. auto. }
    destruct FL as [F1 F2]. unfold central_fields. rewrite <- L, EL, !map_app, (no64_same _ _ F1), (no64_same _ _ F2).
    unfold a_extras, a_zip64. rewrite EB, EA, (lo_u64 _ _ _ _ _ LO), (lo_c64 _ _ _ _ _ LO), (lo_o64 _ _ _ _ _ LO), (lo_d64 _ _ _ _ _ LO),
      (lo_usize _ _ _ _ _ LO), (lo_csize _ _ _ _ _ LO), (lo_offset _ _ _ _ _ LO).
    unfold central_zip64, zip64_extra.
    destruct (in_local64 it) as [[-> ->]|(z & -> & ->)]; cbn [negb andb map app when orb].
    - destruct (off64 it); cbn [app when orb]; now rewrite ?app_nil_r.
    - now rewrite !app_nil_r. }
  unfold member_record, record_bytes. cbv zeta.
  rewrite X, (lo_made_by _ _ _ _ _ LO), (lo_needed _ _ _ _ _ LO), (lo_flags _ _ _ _ _ LO), (lo_method _ _ _ _ _ LO), (lo_time _ _ _ _ _ LO), (lo_date _ _ _ _ _ LO),
    (lo_crc _ _ _ _ _ LO), (lo_usize _ _ _ _ _ LO), (lo_csize _ _ _ _ _ LO), (lo_offset _ _ _ _ _ LO), (lo_disk _ _ _ _ _ LO), (lo_u64 _ _ _ _ _ LO), (lo_c64 _ _ _ _ _ LO),
    (lo_o64 _ _ _ _ _ LO), (lo_d64 _ _ _ _ _ LO), (lo_iattr _ _ _ _ _ LO), (lo_eattr _ _ _ _ _ LO), (lo_name _ _ _ _ _ LO), (lo_comment _ _ _ _ _ LO), <- V, <- F.
  reflexivity.
Qed.

(** ** The entries of a session *)
Definition asks64 (it : item) : bool := in64 it || off64 it.
Definition chained (cd : codec) (l : list wop) (w : world) (xs : list (wop * res unit)) (w' : world) (its : list item) : Prop :=
  Forall2 (fun x it => leaves cd (fst x) (snd x) it) (succeeded (w_force_no w) xs) its /\
  arranged (len (w_bytes w)) its = its /\
  w_bytes w' = w_bytes w ++ concat (map entry_bytes its) /\
  concat (map ce_bytes (w_cds w')) = concat (map ce_bytes (w_cds w)) ++ concat (map record_bytes its) /\
  len (w_cds w') = len (w_cds w) + len its /\
  (w_zip64 w' = true -> w_zip64 w = true \/ existsb asks_zip64 l = true \/ existsb asks64 its = true \/ 65535 < len (w_cds w')) /\
  (w_zip64 w = true \/ existsb asks_zip64 l = true \/ existsb asks64 its = true -> w_zip64 w' = true) /\
  ((65535 < len (w_cds w) -> w_zip64 w = true) -> 65535 < len (w_cds w') -> w_zip64 w' = true).
Lemma moved_same it : moved_to it (i_off it) = it. Proof. now destruct it. Qed.
Lemma leaves_plain cd n o it : leaves cd n o it -> op_good o -> Forall plain_field (en_extra (i_entry it)).
Proof. intros L (P & _). destruct L; apply P. Qed.

Lemma chain_image cd w xs w' : ChainFacts.chain cd w xs w' -> Forall (fun x => op_good (fst x)) xs -> Forall (fun x => dropped (fst x) = false) xs ->
  w_offset w = len (w_bytes w) ->
  Forall (fun x => worked (snd x) = true) xs -> len (w_bytes w') < 0x10000000000000000 -> exists its, chained cd (map fst xs) w xs w' its.
Proof.
  induction 1 as [w|w o r w1 xs w2 L C0 IH]; intros GS DR OF WK LB.
  { exists []. unfold chained. cbn [map concat existsb succeeded arranged]. rewrite !app_nil_r. change (len (@nil item)) with 0. rewrite N.add_0_r.
    split; [constructor|]. do 4 (split; [reflexivity|]). split; [now left|]. split; [|auto]. intros [H|[H|H]]; congruence. }
  apply Forall_cons_iff in GS, DR, WK. destruct GS as [G G2], DR as [D1 D2], WK as [W1 W2]. cbn [map fst snd] in *.
  destruct L as [S EV KF _ KZ _ SAME]. pose proof (evol_offset _ _ EV OF) as OF1. pose proof (chain_evol _ _ _ _ C0) as EV2.
  assert (ASK : writes_entry o = true -> asks_zip64 o = false) by (destruct o; easy).
  destruct (IH G2 D2 OF1 W2 LB) as (its & F & AR & B2 & C2 & N2 & Z1 & Z2 & Z3).
  destruct EV2 as ((b & EB & _) & _). rewrite EB, len_app in LB. specialize (S OF ltac:(lia)).
  rewrite KF in F. destruct S as [C NW TM|c it img WE C B OFF LV EL FN I64 CNT BZ].
  - assert (W : writes_entry o = false) by (destruct (writes_entry o); [rewrite NW in W1 by easy; discriminate|reflexivity]).
    destruct (SAME W D1) as (S1 & S2 & S3). exists its. unfold chained. rewrite succeeded_cons, W. cbn [andb app existsb]. rewrite S1 in AR, B2. rewrite S2 in C2, N2, Z3. rewrite S3 in Z1, Z2, Z3.
    split; [exact F|]. split; [exact AR|]. split; [exact B2|]. split; [exact C2|]. split; [exact N2|].
    split; [|split].
    + intro H. apply Z1 in H. rewrite orb_true_iff in *. tauto.
    + intro H. apply Z2. rewrite orb_true_iff in *. tauto.
    + intros H. apply Z3. intro H1. apply H in H1. rewrite H1. apply orb_true_r.
  - exists (it :: its). unfold chained. rewrite succeeded_cons, WE, W1. cbn [andb app existsb map concat arranged]. rewrite (ASK WE). cbn [orb].
    destruct EL as (a & v & f & lx & LO & IM & CE & _).
    destruct (laid_image _ _ _ _ _ LO (leaves_plain _ _ _ _ LV G)) as (-> & -> & -> & RB). rewrite RB in CE.
    change (item_image it (version_of (i_entry it)) (plain_entry (i_entry it)) (local_fields it)) with (entry_bytes it) in IM. subst img.
    assert (MV : moved_to it (len (w_bytes w)) = it) by (rewrite <- OF, <- OFF; apply moved_same). rewrite MV.
    rewrite B, len_app in AR. rewrite AR.
    split; [now constructor|]. split; [reflexivity|]. split; [rewrite B2, B; now rewrite <- app_assoc|].
    split; [rewrite C2, C, map_app, concat_app, <- app_assoc; cbn [map concat]; rewrite CE, app_nil_r; reflexivity|].
    split; [rewrite N2, C, len_app, !len_cons; change (len (@nil cd_entry)) with 0; lia|].
    assert (LE : len (w_cds w1) <= len (w_cds w2)) by lia.
    split; [|split].
    + intro H. apply Z1 in H. unfold asks64 at 1. rewrite orb_true_iff. destruct H as [H|H]; [|tauto]. apply BZ in H. destruct H as [H|[H|H]]; [tauto|tauto|]. right; right; right. lia.
    + unfold asks64 at 1. rewrite orb_true_iff. intros [H|[H|[H|H]]]; [auto..|auto].
    + intros H1. apply Z3. intro H2. destruct ((65535 <? len (w_cds w1)) && w_force_no w); [destruct CNT; congruence|]. now apply CNT.
Qed.

Lemma chain_exact cd sched xs w0 w : ChainFacts.chain cd (zw_new sched) xs w0 -> zw_close w0 = (Ok tt, w) ->
  Forall (fun x => op_good (fst x)) xs -> Forall (fun x => dropped (fst x) = false) xs ->
  Forall (fun x => worked (snd x) = true) xs -> len (w_bytes w) < 0x10000000000000000 ->
  exists its, Forall2 (fun x it => leaves cd (fst x) (snd x) it) (succeeded false xs) its /\
    w_bytes w = archive_image (existsb asks_zip64 (map fst xs)) its (last_comment (map fst xs)).
Proof.
  intros CN CL G DR WK L. pose proof (chain_image cd _ _ _ CN G DR eq_refl WK) as C. pose proof (chain_comment _ _ _ _ CN) as KC.
  pose proof (evol_offset _ _ (chain_evol _ _ _ _ CN) eq_refl) as OF. pose proof (chain_short _ _ _ _ CN ltac:(constructor)) as SH.
  apply (close_ok _ _ _ SH) in CL as (E & _ & _). rewrite E, len_app in L. destruct (C ltac:(lia)) as (its & F & AR & B & CD & NC & Z1 & Z2 & Z3).
  change (w_bytes (zw_new sched)) with (@nil byte) in *. change (w_cds (zw_new sched)) with (@nil cd_entry) in *. change (w_force_no (zw_new sched)) with false in *.
  change (w_zip64 (zw_new sched)) with false in *. change (w_comment (zw_new sched)) with (@None bytes) in *.
  change (len (@nil byte)) with 0 in *. change (len (@nil cd_entry)) with 0 in *. rewrite N.add_0_l in NC. cbn [map concat app] in B, CD.
  exists its. split; [exact F|]. rewrite E, OF, B, CD, NC, KC. unfold archive_image, last_comment. rewrite AR. cbv zeta.
  fold asks64. replace (w_zip64 w0) with (existsb asks_zip64 (map fst xs) || existsb asks64 its || (65535 <? len its)); [reflexivity|].
  rewrite NC in Z1, Z3. apply eq_true_iff_eq. rewrite !orb_true_iff, N.ltb_lt. split.
  - intros [[H|H]|H]; auto. apply Z3; [intro; lia|exact H].
  - intro H. apply Z1 in H as [H|[H|[H|H]]]; [discriminate|tauto..].
Qed.
Lemma exact_image cd sched l : enc_takes cd -> Forall op_good l -> Forall (fun o => dropped o = false) l ->
  let '(xs, r, w) := run_archive cd sched l in
  r = Ok tt -> Forall (fun x => worked (snd x) = true) xs -> len (w_bytes w) < 0x10000000000000000 ->
  exists its, Forall2 (fun x it => leaves cd (fst x) (snd x) it) (succeeded false xs) its /\ w_bytes w = archive_image (existsb asks_zip64 l) its (last_comment l).
Proof.
  intros T G DR. pose proof (calls_chain cd l T G (zw_new sched)) as H. unfold run_archive. destruct (run_ops cd l (zw_new sched)) as [xs w0].
  destruct H as [CN M]. destruct (zw_close w0) as [r w] eqn:CL. intros -> WK L. rewrite <- M.
  refine (chain_exact cd sched xs w0 w CN CL _ _ WK L); [now rewrite <- Forall_map, M|now rewrite <- (Forall_map fst (fun o => dropped o = false)), M].
Qed.

(** ** Data as it is *)
Lemma arranged_moved its its' : Forall2 (fun a b => moved_to a 0 = moved_to b 0) its its' -> forall off, arranged off its = arranged off its'.
Proof.
  induction 1 as [|a b its its' E _ IH]; intro off; [reflexivity|]. cbn [arranged].
  assert (M : moved_to a off = moved_to b off) by (destruct a, b; unfold moved_to in *; cbn in *; congruence). rewrite M. cbv zeta. now rewrite IH.
Qed.
Lemma image_moved forced c its its' : Forall2 (fun a b => moved_to a 0 = moved_to b 0) its its' -> archive_image forced its c = archive_image forced its' c.
Proof. intro H. unfold archive_image. now rewrite (arranged_moved _ _ H). Qed.
Lemma leaves_item cd no64 o it : leaves cd no64 o it -> as_it_is o -> moved_to it 0 = item_of no64 o.
Proof.
  destruct 1 as [e data z off C|e z off|e body z off C|e body off]; cbn [as_it_is]; intro A; try reflexivity.
  - destruct C; [reflexivity|contradiction].
  - remember (fed_bytes body) as t eqn:E in C. destruct C; [|contradiction]. subst. reflexivity.
Qed.
Lemma item_moved no64 o : moved_to (item_of no64 o) 0 = item_of no64 o.
Proof. destruct o; try reflexivity. cbn. destruct pre; reflexivity. Qed.
Lemma succeeded_calls xs : Forall (fun x => worked (snd x) = true) xs -> forall no64, succeeded no64 xs = entry_calls no64 (map fst xs).
Proof. induction 1 as [|[o r] xs W _ IH]; intro no64; [reflexivity|]. cbn [succeeded map fst entry_calls]. cbn [snd] in W. now rewrite W, andb_true_r, IH. Qed.
Lemma entry_calls_in l : forall no64, Forall (fun x => In (snd x) l) (entry_calls no64 l).
Proof.
  induction l as [|o l IH]; intro no64; [constructor|]. cbn [entry_calls]. apply Forall_app. split; [destruct (writes_entry o); repeat constructor|].
  eapply Forall_impl; [|apply IH]. intros x I. now right.
Qed.
Lemma as_items cd ys its : Forall2 (fun x it => leaves cd (fst x) (snd x) it) ys its -> Forall (fun x => as_it_is (snd x)) ys ->
  Forall2 (fun a b => moved_to a 0 = moved_to b 0) its (map (fun x => item_of (fst x) (snd x)) ys).
Proof.
  induction 1 as [|x it ys its L _ IH]; intro A; cbn [map]; constructor; inversion A; subst; auto. rewrite item_moved. now apply (leaves_item cd).
Qed.
Lemma chain_session cd sched xs w0 w : ChainFacts.chain cd (zw_new sched) xs w0 -> zw_close w0 = (Ok tt, w) ->
  Forall (fun x => op_good (fst x)) xs -> Forall (fun x => dropped (fst x) = false) xs -> Forall (fun x => as_it_is (fst x)) xs ->
  Forall (fun x => worked (snd x) = true) xs -> len (w_bytes w) < 0x10000000000000000 -> w_bytes w = session_image (map fst xs).
Proof.
  intros CN CL G DR A WK L. destruct (chain_exact cd sched xs w0 w CN CL G DR WK L) as (its & F & ->).
  unfold session_image. apply image_moved. rewrite (succeeded_calls _ WK) in F. apply (as_items cd _ _ F).
  rewrite <- Forall_map in A. eapply Forall_impl; [|apply entry_calls_in]. intros x I. now apply (proj1 (Forall_forall _ _) A).
Qed.
Lemma session_exact cd sched l : enc_takes cd -> Forall op_good l -> Forall (fun o => dropped o = false) l -> Forall as_it_is l ->
  let '(xs, r, w) := run_archive cd sched l in
  r = Ok tt -> Forall (fun x => worked (snd x) = true) xs -> len (w_bytes w) < 0x10000000000000000 -> w_bytes w = session_image l.
Proof.
  intros T G DR A. pose proof (calls_chain cd l T G (zw_new sched)) as H. unfold run_archive. destruct (run_ops cd l (zw_new sched)) as [xs w0].
  destruct H as [CN M]. destruct (zw_close w0) as [r w] eqn:CL. intros -> WK L. rewrite <- M.
  refine (chain_session cd sched xs w0 w CN CL _ _ _ WK L);
    [now rewrite <- Forall_map, M|now rewrite <- (Forall_map fst (fun o => dropped o = false)), M|now rewrite <- Forall_map, M].
Qed.
Lemma session_made cd sched l : enc_takes cd -> obliging sched -> Forall handy l -> Forall (fun o => dropped o = false) l -> Forall as_it_is l ->
  let '(xs, r, w) := run_archive cd sched l in
  xs = map (fun o => (o, Ok tt)) l /\ r = Ok tt /\ (len (w_bytes w) < 0x10000000000000000 -> w_bytes w = session_image l).
Proof.
  intros T O H DR A. pose proof (archive_works cd sched l T O H) as W.
  pose proof (session_exact cd sched l T ltac:(eapply Forall_impl; [|exact H]; intros o (_ & G & _); exact G) DR A) as S.
  destruct (run_archive cd sched l) as [[xs r] w]. destruct W as [-> ->]. split; [reflexivity|]. split; [reflexivity|]. intro L. apply S; [reflexivity| |exact L].
  apply Forall_forall. intros x I. apply in_map_iff in I as (o & <- & _). reflexivity.
Qed.
