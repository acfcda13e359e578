(** Witnesses with many entries: a refused entry that is listed, and a directory too big for its size field. *)
From Verif Require Import Base BaseFacts Crc32 CrcFacts ZString ZDate Headers HeadersFacts ExtraField ExtraFieldFacts Entry IO IOFacts
  Locator LocatorFacts Reader EntryReader Writer WriterFacts WholeFacts StreamFacts SpecFormat SpecCrc SpecUtf8 SpecArchive SpecRead SpecWrite
  EntryProofs ReadProofs WriteProofs RecordFacts HistFacts CloseFacts RoundTrip TextFacts ArchiveProofs RepeatFacts Samples WriteSamples.
Arguments N.add : simpl never.
Arguments N.sub : simpl never.
Arguments N.mul : simpl never.

Definition tiny (comment : bytes) : zentry := mk_entry (utf8 [x61]) (utf8 comment) Stored [].
Lemma tiny_good c : op_good (OpWhole (tiny c) []).
Proof. split; [|cbn; lia]. unfold op_fine, entry_fine, entry_wt. cbn. ands; try lia. constructor. Qed.
Lemma repeat_good o n : op_good o -> Forall op_good (repeat o n).
Proof. intro G. induction n; cbn; constructor; auto. Qed.

Lemma members_len cd e (recs : list (bool * wop)) its body ms : en_compression e = Stored -> en_extra e = [] -> plain_text (en_filename e) -> plain_text (en_comment e) ->
  Forall (fun x => snd x = OpWhole e []) recs ->
  Forall2 (fun x it => leaves cd (fst x) (snd x) it) recs its -> Forall2 (entry_of body) its ms -> len body <= 0xFFFFFFFF ->
  len (members ms) = len recs * rec_len e.
Proof.
  intros ST XS PN PC F L E B. revert ms E. induction L as [|x it recs its L1 _ IH]; intros ms E; inversion E as [|it0 a its0 ms0 E1 E2]; subst.
  - reflexivity.
  - inversion F as [|x0 r0 F1 F2]; subst. unfold members in *. cbn [map concat]. rewrite len_app.
    rewrite (IH F2 ms0 E2). rewrite F1 in L1. rewrite (small_record cd e ST XS PN PC _ it body a L1 (entry_near _ _ _ E1 B) E1).
    unfold len. cbn [length]. nia.
Qed.

Lemma found_at_tail sig a b q : found_at sig (a ++ b) q -> len a <= q -> found_at sig b (q - len a).
Proof.
  intros (p & s & E & L) H. assert (P : firstn (length a) p = a).
  { pose proof (f_equal (firstn (length a)) E) as X. rewrite firstn_app, Nat.sub_diag, firstn_all, firstn_O, app_nil_r in X.
    rewrite firstn_app in X. replace (length a - length p)%nat with O in X by (unfold len in *; lia). rewrite firstn_O, app_nil_r in X. now symmetry. }
  rewrite <- (firstn_skipn (length a) p), P, <- !app_assoc in E. apply app_inv_head in E.
  exists (skipn (length a) p), s. split; [exact E|]. unfold len in *. rewrite skipn_length. lia.
Qed.

Lemma map_repeat {A B} (f : A -> B) x n : map f (repeat x n) = repeat (f x) n.
Proof. induction n; cbn; congruence. Qed.

(** ** A refused entry that is listed *)
Definition crowd (n : nat) : list wop := OpForceZip64 :: OpForceNoZip64 :: repeat (OpWhole (tiny []) []) n ++ [OpWhole (tiny []) []].
Lemma crowd_good n : Forall op_good (crowd n).
Proof.
  unfold crowd. constructor; [now split|]. constructor; [now split|]. apply Forall_app. split; [apply repeat_good, tiny_good|]. constructor; [apply tiny_good|constructor].
Qed.
Lemma crowd_runs n : N.of_nat n = 65535 ->
  exists w, run_ops toy (crowd n) (zw_new []) = ((OpForceZip64, Ok tt) :: (OpForceNoZip64, Ok tt) :: repeat (OpWhole (tiny []) [], Ok tt) n ++
    [(OpWhole (tiny []) [], Err (Zip64Needed TooManyFiles))], w) /\ w_sched w = [] /\ w_offset w = 2031616 /\ w_zip64 w = true /\ w_force_no w = true.
Proof.
  intro E. unfold crowd. cbn [run_ops run_op]. unfold modify. cbv beta iota. rewrite run_ops_app.
  destruct (whole_many toy (tiny []) [] eq_refl eq_refl ltac:(split; reflexivity) ltac:(split; reflexivity) ltac:(reflexivity) ltac:(reflexivity) ltac:(discriminate)
    n (set_force_no (set_zip64 (zw_new []) true) true)) as (w1 & R1 & S1 & O1 & C1 & F1 & Z1).
  { reflexivity. }
  { rewrite E. vm_compute. discriminate. }
  { rewrite E. vm_compute. discriminate. }
  rewrite E in O1, C1. change (w_offset w1 = 2031585) in O1. change (len (w_cds w1) = 65535) in C1. change (w_force_no w1 = true) in F1.
  assert (Z : w_zip64 w1 = true) by (rewrite Z1; reflexivity).
  rewrite R1. cbn [run_ops].
  destruct (whole_once toy (tiny []) [] eq_refl eq_refl ltac:(split; reflexivity) ltac:(split; reflexivity) ltac:(reflexivity) ltac:(reflexivity) ltac:(discriminate) w1 S1)
    as (w2 & R2 & S2 & O2 & C2 & F2 & Z2 & _).
  { rewrite O1. discriminate. }
  rewrite C1, F1 in R2. change (65535 <? 65535 + 1) with true in R2. cbn [andb] in R2. rewrite R2. exists w2.
  split; [reflexivity|]. split; [exact S2|]. split; [rewrite O2, O1; reflexivity|]. split; [rewrite Z2; [exact Z|left; exact F1]|congruence].
Qed.
Lemma crowded n : N.of_nat n = 65535 ->
  let '(xs, r, w) := run_archive toy [] (crowd n) in
  r = Ok tt /\ (exists ys, xs = ys ++ [(OpWhole (tiny []) [], Err (Zip64Needed TooManyFiles))]) /\
  exists f, mem_new cfg0 (w_bytes w) = Ok {| m_data := w_bytes w; m_file := f |} /\
    len (succeeded false xs) = 65535 /\ len (f_entries f) = 65536.
Proof.
  intro E. pose proof (body_shape toy [] (crowd n) toy_takes (crowd_good n)) as SH.
  pose proof (cds_short_run_ops toy (crowd n) toy_takes (zw_new []) ltac:(constructor)) as CS.
  pose proof (run_ops_offset toy (crowd n) []) as OF. cbv zeta in OF.
  destruct (crowd_runs n E) as (w2 & R & S2 & OO & ZZ & FF).
  unfold run_archive in *. rewrite R in *. cbn [snd] in *.
  assert (CL : fst (zw_close w2) = Ok tt).
  { apply close_calm; [exact CS|exact S2|]. rewrite OO. reflexivity. }
  destruct (zw_close w2) as [r w3] eqn:E3. cbn [fst] in CL. subst r.
  pose proof (close_ok w2 w3 tt CS E3) as (B3 & _ & Z3). rewrite ZZ in Z3. cbn [orb] in Z3.
  split; [reflexivity|]. split; [now eexists (_ :: _ :: _)|].
  set (xs := (OpForceZip64, Ok tt) :: (OpForceNoZip64, Ok tt) :: repeat (OpWhole (tiny []) [], Ok tt) n ++
    [(OpWhole (tiny []) [], Err (Zip64Needed TooManyFiles))]) in *.
  assert (RC : recorded false xs = repeat (true, OpWhole (tiny []) []) n ++ [(true, OpWhole (tiny []) [])]).
  { unfold xs. cbn [recorded writes_entry andb app no_after]. rewrite recorded_app. f_equal; [now apply recorded_repeat|].
    rewrite map_repeat. cbn [fst]. rewrite no_after_repeat by reflexivity. reflexivity. }
  assert (SU : len (succeeded false xs) = 65535).
  { unfold xs. cbn [succeeded writes_entry andb app no_after]. rewrite succeeded_app, succeeded_repeat by reflexivity.
    rewrite map_repeat. cbn [fst]. rewrite no_after_repeat by reflexivity. cbn [succeeded writes_entry worked andb app]. rewrite app_nil_r.
    unfold len. now rewrite repeat_length. }
  assert (RL : len (recorded false xs) = 65536).
  { rewrite RC. unfold len. rewrite app_length, repeat_length. cbn [length]. lia. }
  destruct (SH eq_refl ltac:(rewrite <- OF, OO; reflexivity)) as (its & ms & [H1 H2 H3 H4 H5 H6 H7 H8]).
  assert (LB : len (w_bytes w2) = 2031616) by congruence.
  assert (LM : len (members ms) = 3080192).
  { rewrite (members_len toy (tiny []) (recorded false xs) its (w_bytes w2) ms eq_refl eq_refl ltac:(split; reflexivity) ltac:(split; reflexivity) ltac:(rewrite RC; apply Forall_app; split; [apply Forall_forall; intros x I; apply repeat_spec in I; now subst|now constructor]) H2 H3 ltac:(rewrite LB; discriminate)).
    rewrite RL. reflexivity. }
  assert (NM : len ms = 65536).
  { rewrite <- RL. unfold len. now rewrite (Forall2_len _ _ _ H2), (Forall2_len _ _ _ H3). }
  assert (LC : last_comment (crowd n) = []).
  { unfold last_comment, crowd. cbn [fold_left comment_after]. rewrite fold_left_app.
    assert (F : forall k, fold_left comment_after (repeat (OpWhole (tiny []) []) k) None = None) by (induction k; cbn; auto).
    now rewrite F. }
  rewrite Z3, NM, LM, LB, LC in H1.
  destruct (archive_opens cfg0 (cursor (w_bytes w3)) (w_bytes w3) true (w_bytes w2) ms []) as (f & F & RF).
  - rewrite NM, LM, LB. exact H1.
  - cbn [listed]. clear -H3 LB. assert (NB : len (w_bytes w2) <= 0xFFFFFFFF) by (rewrite LB; discriminate). clear LB.
    induction H3 as [|it a its ms E H IH]; constructor; [|exact IH]. destruct E as [W MO]. apply MO, near_clear, (entry_near (w_bytes w2) it a); [|exact NB]. now split.
  - reflexivity.
  - split; [discriminate|]. split; [|discriminate]. intros q FQ.
    destruct (N.le_gt_cases (q + 22) (len (w_bytes w3))) as [|GT]; [rewrite N.add_0_r; assumption|exfalso].
    unfold archive_end in H1. cbn [negb] in H1. rewrite app_nil_r in H1.
    set (er := end_record _ _ _ _ _ _ _) in H1. rewrite !app_assoc in H1.
    match type of H1 with _ = ?h ++ er => set (hd := h) in H1 end. clearbody hd.
    rewrite H1 in FQ, GT. rewrite len_app in GT. change (len er) with 22 in GT.
    apply found_at_tail in FQ; [|lia].
    assert (X : q - len hd <= 0) by (apply (none_after_ok (le 4 0x06054b50) er 0); [reflexivity|vm_compute; reflexivity|exact FQ]). lia.
  - rewrite H1, !len_app, LB, LM. reflexivity.
  - reflexivity.
  - constructor.
  - cbn [listed]. rewrite NM. vm_compute. discriminate.
  - exists f. split; [|split; [exact SU|]].
    + unfold mem_new. rewrite F. reflexivity.
    + destruct RF as (RF & _). apply Forall2_len in RF. cbn [listed] in RF. rewrite <- NM. unfold len. now rewrite RF.
Qed.

(** ** A directory too big for its size field *)
Definition fat (no64 : bool) (n k : nat) : list wop := (if no64 then [OpForceNoZip64] else []) ++ repeat (OpWhole (tiny (repeat x63 k)) []) n.
Lemma fat_good no64 n k : Forall op_good (fat no64 n k).
Proof. apply Forall_app. split; [destruct no64; repeat constructor|]. apply repeat_good, tiny_good. Qed.
Lemma fat_runs no64 n k : N.of_nat n = 65535 -> N.of_nat k = 65535 ->
  exists w, run_ops toy (fat no64 n k) (zw_new []) = ((if no64 then [(OpForceNoZip64, Ok tt)] else []) ++ repeat (OpWhole (tiny (repeat x63 k)) [], Ok tt) n, w) /\
    w_sched w = [] /\ w_offset w = 2031585 /\ w_zip64 w = false /\ w_force_no w = no64.
Proof.
  intros E K. unfold fat.
  destruct (whole_many toy (tiny (repeat x63 k)) [] eq_refl eq_refl ltac:(split; reflexivity) ltac:(split; reflexivity) ltac:(reflexivity)
    ltac:(cbn; unfold len; rewrite repeat_length, K; reflexivity) ltac:(discriminate)
    n (if no64 then set_force_no (zw_new []) true else zw_new [])) as (w1 & R1 & S1 & O1 & C1 & F1 & Z1).
  { now destruct no64. }
  { rewrite E. destruct no64; vm_compute; discriminate. }
  { rewrite E. destruct no64; vm_compute; discriminate. }
  rewrite E in O1, C1. exists w1. split.
  { destruct no64; cbn [app run_ops run_op]; unfold modify; cbv beta iota; now rewrite R1. }
  split; [exact S1|]. split; [rewrite O1; now destruct no64|]. split; [rewrite Z1; now destruct no64|rewrite F1; now destruct no64].
Qed.
Lemma fat_archive no64 n k : N.of_nat n = 65535 -> N.of_nat k = 65535 ->
  let '(xs, r, w) := run_archive toy [] (fat no64 n k) in
  r = Ok tt /\ Forall (fun x => worked (snd x) = true) xs /\ w_zip64 w = false /\
  exists body ms, w_bytes w = body ++ members ms ++ end_record 0 0 65535 65535 0xFFFFFFFF (len body) 0 /\ 0xFFFFFFFF < len (members ms).
Proof.
  intros E K. pose proof (body_shape toy [] (fat no64 n k) toy_takes (fat_good no64 n k)) as SH.
  pose proof (cds_short_run_ops toy (fat no64 n k) toy_takes (zw_new []) ltac:(constructor)) as CS.
  pose proof (run_ops_offset toy (fat no64 n k) []) as OF. cbv zeta in OF.
  destruct (fat_runs no64 n k E K) as (w2 & R & S2 & OO & ZZ & FF).
  unfold run_archive in *. rewrite R in *. cbn [snd] in *.
  assert (CL : fst (zw_close w2) = Ok tt).
  { apply close_calm; [exact CS|exact S2|]. rewrite OO. reflexivity. }
  destruct (zw_close w2) as [r w3] eqn:E3. cbn [fst] in CL. subst r.
  pose proof (close_ok w2 w3 tt CS E3) as (B3 & _ & Z3). rewrite ZZ, OO in Z3. change (w_zip64 w3 = false) in Z3.
  split; [reflexivity|]. split.
  { apply Forall_app. split; [destruct no64; repeat constructor|]. apply Forall_forall. intros x I. apply repeat_spec in I. now subst. }
  split; [exact Z3|].
  set (o := OpWhole (tiny (repeat x63 k)) []) in *.
  set (xs := (if no64 then [(OpForceNoZip64, Ok tt)] else []) ++ repeat (o, Ok tt) n) in *.
  assert (RC : recorded false xs = repeat (no64, o) n).
  { unfold xs. destruct no64; cbn [recorded writes_entry andb app no_after]; now apply recorded_repeat. }
  assert (RL : len (recorded false xs) = 65535) by (rewrite RC; unfold len; now rewrite repeat_length).
  destruct (SH eq_refl ltac:(rewrite <- OF, OO; reflexivity)) as (its & ms & [H1 H2 H3 H4 H5 H6 H7 H8]).
  assert (LB : len (w_bytes w2) = 2031585) by congruence.
  assert (LM : len (members ms) = 65535 * 65582).
  { rewrite (members_len toy (tiny (repeat x63 k)) (recorded false xs) its (w_bytes w2) ms eq_refl eq_refl ltac:(split; reflexivity) ltac:(split; reflexivity)
      ltac:(rewrite RC; apply Forall_forall; intros x I; apply repeat_spec in I; now subst) H2 H3 ltac:(rewrite LB; discriminate)).
    rewrite RL. f_equal. unfold rec_len. cbn [tiny mk_entry en_filename en_comment utf8 zs_raw]. unfold len. rewrite repeat_length. cbn [length]. lia. }
  assert (NM : len ms = 65535).
  { rewrite <- RL. unfold len. now rewrite (Forall2_len _ _ _ H2), (Forall2_len _ _ _ H3). }
  assert (LC : last_comment (fat no64 n k) = []).
  { unfold last_comment, fat. fold o.
    assert (F : forall j, fold_left comment_after (repeat o j) None = None) by (induction j; cbn; auto).
    destruct no64; cbn [app fold_left comment_after]; now rewrite F. }
  rewrite Z3, LC in H1. exists (w_bytes w2), ms. split; [|rewrite LM; reflexivity].
  rewrite H1. unfold archive_end. rewrite app_nil_r, LM, NM, LB. reflexivity.
Qed.
