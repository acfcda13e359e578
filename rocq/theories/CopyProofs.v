(** Copying entries from archive to archive. *)
From Verif Require Import Base BaseFacts Crc32 CrcFacts Utf8 Utf8Facts ZString ZDate Headers ExtraField Entry IO IOFacts Reader EntryReader Writer OpenFacts TameFacts
  SpecFormat SpecCrc SpecUtf8 SpecArchive SpecRead SpecWrite SpecCopy WriteProofs RecordFacts CloseFacts RoundTrip TextFacts ArchiveProofs Zip64Proofs.
Arguments N.add : simpl never.
Arguments N.sub : simpl never.

(** ** Texts *)
Lemma same_text_refl s : same_text s s.
Proof. unfold same_text. auto. Qed.
Lemma same_text_trans s t u : same_text s t -> same_text t u -> same_text s u.
Proof.
  intros (A1 & A2 & A3 & A4 & A5) (B1 & B2 & B3 & B4 & B5). unfold same_text.
  split; [congruence|]. split; [auto|]. split; [auto|]. split; [|congruence]. intros H N. apply B4; [auto|congruence].
Qed.

Section Kind.
Variables (mk : unicode_field -> extra_field) (pr : extra_field -> list unicode_field).
Hypothesis K : kind mk pr.
Notation view := (view pr).
(** reading depends on the fields of the kind only *)
Lemma view_reads flag xs basic z : reads_view flag (view xs) basic z -> reads_as mk flag xs basic z.
Proof.
  destruct 1 as [F U|F U|a t b F E N U|F N A|F N A].
  - now apply ra_flag.
  - now apply ra_flag_invalid.
  - apply (view_split _ _ K) in E as (l1 & l2 & -> & <- & <-). apply (ra_field mk flag _ basic l1 t l2); try easy. now apply (silent_view _ _ K).
  - apply ra_ascii; [easy|now apply (no_text_view _ _ K)|easy].
  - apply ra_raw; [easy|now apply (no_text_view _ _ K)|easy].
Qed.
Lemma says_split basic a t b a' t' b' : a ++ UV1 (crc32_spec basic) t :: b = a' ++ UV1 (crc32_spec basic) t' :: b' ->
  Forall (fun u => ~ says basic u) a -> Forall (fun u => ~ says basic u) a' -> t = t'.
Proof.
  revert a'. induction a as [|u a IH]; intros [|u' a'] E N N'; cbn in E; injection E as E1 E2.
  - congruence.
  - subst u'. inversion N'; subst. elim H1. now exists t.
  - subst u. inversion N; subst. elim H1. now exists t'.
  - apply (IH a'); [exact E2|now inversion N|now inversion N'].
Qed.
Lemma reads_view_det v basic y z : reads_view false v basic y -> reads_view false v basic z -> y = z.
Proof.
  intros R1 R2. assert (M : mute basic v -> y = z).
  { intro M. destruct (mute_reads _ _ _ M R1) as [[A ->]|[A ->]], (mute_reads _ _ _ M R2) as [[B ->]|[B ->]]; auto; contradiction. }
  destruct R1 as [F|F|a t b _ E N U|_ N A|_ N A]; try discriminate; auto.
  remember v as v0 eqn:V in R2.
  destruct R2 as [F|F|a' t' b' _ E' N' U'|_ N' A'|_ N' A']; try discriminate; subst v0; auto.
  rewrite E in E'. now rewrite (says_split _ _ _ _ _ _ _ E' N N').
Qed.
(** a string already read from these fields is read again after they were written anew *)
Lemma text_again s xs ys z : reads_as mk false xs (stored_bytes s) s -> spelled mk s xs ys ->
  reads_view false (view ys) (stored_bytes s) z -> same_text s z.
Proof.
  intros RS SP R. apply (reads_as_view _ _ K) in RS. apply (spelled_view _ _ K) in SP.
  assert (G : zs_enc s = EUtf8 -> forall b, view ys = UV1 (crc32_spec (stored_bytes s)) (zs_raw s) :: b -> same_text s z).
  { intros E b V. rewrite V in R. apply first_read in R.
    - subst z. unfold same_text. cbn [zs_raw zs_enc zs_alt]. split; [easy|]. split; [easy|]. split; [|split; [congruence|reflexivity]].
      intros a A. unfold stored_bytes. now rewrite A.
    - remember (stored_bytes s) as sb. destruct RS as [F|F|a t b0 _ _ _ U|_ _ A|_ _ A]; try discriminate; cbn [zs_raw] in *; auto.
      apply utf8_valid_iff, ascii_utf8. now apply is_ascii_iff. }
  assert (Q : view ys = view xs -> same_text s z).
  { intro V. rewrite V in R. rewrite <- (reads_view_det _ _ _ _ RS R). apply same_text_refl. }
  destruct SP as [(E & N & [[V1 V2]|[(crc & old & b & V1 & V2)|(v & d & b & V1 & V2)]])|[H V]]; eauto.
Qed.
Lemma settled_back s xs xs' ys z : sound_string s -> text_settled mk s xs -> view xs' = view xs -> spelled mk s xs' ys ->
  reads_view false (view ys) (stored_bytes s) z -> same_text s z.
Proof.
  intros S [C|C] V SP R.
  - refine (text_back _ _ K _ xs' ys _ S _ SP R). destruct C as [(E & N & F)|(A & AS & NT)]; [left|right].
    + split; [easy|]. split; [easy|]. destruct F as [F|(p & crc & old & q & EX & F)].
      * left. apply (view_none _ _ K). rewrite V. now apply (view_none _ _ K).
      * right. assert (VE : view xs' = [] ++ UV1 crc old :: view q).
        { rewrite V, EX, view_app, (view_cons_mk _ _ K). apply (view_none _ _ K) in F. now rewrite F. }
        apply (view_split _ _ K) in VE as (l1 & l2 & -> & VE & _). exists l1, crc, old, l2. split; [easy|]. now apply (view_none _ _ K).
    + split; [easy|]. split; [easy|]. apply (no_text_view _ _ K). rewrite V. now apply (no_text_view _ _ K).
  - apply (text_again s xs' ys z); [|exact SP|exact R]. apply view_reads. rewrite V. now apply (reads_as_view _ _ K).
Qed.
(** leaving out an empty last field does not matter *)
Lemma heard_view l : (forall x, spec_payload x = [] -> pr x = []) -> view (heard l) = view l.
Proof.
  intro H. unfold heard. destruct (rev l) as [|x r] eqn:E.
  - apply (f_equal (@rev _)) in E. rewrite rev_involutive in E. now subst l.
  - apply (f_equal (@rev _)) in E. rewrite rev_involutive in E. cbn in E. subst l.
    destruct (spec_payload x) eqn:P; [|reflexivity]. rewrite view_app. unfold TextFacts.view at 3. cbn. rewrite (H x P). now rewrite !app_nil_r.
Qed.
End Kind.

(** ** Fields *)
Lemma heard_app l : exists t, l = heard l ++ t /\ Forall (fun x => spec_payload x = []) t.
Proof.
  unfold heard. destruct (rev l) as [|x r] eqn:E; apply (f_equal (@rev _)) in E; rewrite rev_involutive in E; cbn in E; subst l.
  - now exists [].
  - destruct (spec_payload x) eqn:P; [exists [x]; now repeat constructor|exists []]. now rewrite app_nil_r.
Qed.
Lemma heard_filter l : filter own_field (heard l) = filter own_field l.
Proof.
  destruct (heard_app l) as (t & E & F). rewrite E at 2. rewrite filter_app.
  assert (X : filter own_field t = []).
  { clear E. induction F as [|x t P _ IH]; [easy|]. cbn [filter]. unfold own_field at 1. rewrite P. now destruct x. }
  now rewrite X, app_nil_r.
Qed.
Lemma heard_plain l : Forall plain_field l -> Forall plain_field (heard l).
Proof. destruct (heard_app l) as (t & E & _). intro H. rewrite E in H. now apply Forall_app in H as [H _]. Qed.
Lemma spelled_filter mk s xs ys : (forall u, own_field (mk u) = false) -> spelled mk s xs ys -> filter own_field ys = filter own_field xs.
Proof.
  intros H. destruct 1 as [xs ys _ _ T|xs _]; [|easy]. destruct T as [xs _|a crc old b _|a v d b _]; [| |easy].
  - rewrite filter_app. cbn [filter]. now rewrite H, app_nil_r.
  - rewrite !filter_app. cbn [filter]. now rewrite !H.
Qed.
Lemma texts_filter n c f xs ys : texts n c f xs ys -> filter own_field ys = filter own_field xs.
Proof.
  destruct 1 as [xs _ _|xs ys zs _ S1 S2]; [easy|]. rewrite (spelled_filter XComment _ _ _ ltac:(easy) S2). now apply (spelled_filter XPath _ _ _ ltac:(easy) S1).
Qed.

(** ** One entry *)
Lemma copy_extras it a v f lx : laid_out it a v f lx -> i_stream it = false -> i_usize it <= 0xFFFFFFFF -> i_csize it <= 0xFFFFFFFF ->
  i_off it <= 0xFFFFFFFF -> local_zip64 it = [] /\ a_extras a = lx.
Proof.
  intros LO S U C O.
  assert (B : i_big it = false) by (unfold i_big, is_over; destruct (N.ltb_spec 0xFFFFFFFF (i_usize it)), (N.ltb_spec 0xFFFFFFFF (i_csize it)); try reflexivity; lia).
  assert (OV : is_over (i_off it) = false) by (unfold is_over; apply N.ltb_ge; exact O).
  assert (L : local_zip64 it = []) by (unfold local_zip64; now rewrite S, B).
  split; [exact L|]. destruct (lo_extras _ _ _ _ _ LO) as (b & t & E & EB & EA). rewrite L in E.
  unfold in64, off64 in *. rewrite S, B, OV in EB, EA. cbn [negb andb] in EB, EA.
  unfold a_extras, a_zip64. rewrite (lo_u64 _ _ _ _ _ LO), (lo_c64 _ _ _ _ _ LO), (lo_o64 _ _ _ _ _ LO), (lo_d64 _ _ _ _ _ LO).
  unfold in64, off64. rewrite S, B, OV. cbn [orb app]. rewrite EB, EA, app_nil_r. now symmetry.
Qed.
Lemma empty_path x : spec_payload x = [] -> pr_path x = [].
Proof. destruct x as [z|u|u|id sz c]; try easy. destruct u; discriminate. Qed.
Lemma empty_comment x : spec_payload x = [] -> pr_comment x = [].
Proof. destruct x as [z|u|u|id sz c]; try easy. destruct u; discriminate. Qed.
Lemma flag_word_11 d f : N.testbit (flag_word false d f) 11 = f.
Proof. now destruct d, f. Qed.
Lemma reads_sound mk flag xs basic z : reads_as mk flag xs basic z -> sound_string z.
Proof.
  destruct 1 as [F U|F U|a t b F E N U|F N A|F N A]; split; cbn [zs_enc zs_raw zs_alt]; try easy.
  intros _. apply utf8_valid_iff, ascii_utf8. now apply is_ascii_iff.
Qed.

Lemma entry_copy cd no64 d e data it a v f lx st : leaves cd no64 (OpWhole e data) it -> laid_out it a v f lx -> sits d it v f lx ->
  reported a st -> as_written d it st -> copyable (e, data) -> len d <= 0xFFFFFFFF ->
  copy_of (e, data) (st_entry st, data) /\ copyable (st_entry st, data).
Proof.
  intros L LO SI RP W ((WT & PF) & LD & S1 & S2 & TX) LEN. cbn [fst snd] in *.
  destruct SI as (before & after & E & OFF). assert (LL := f_equal len E). rewrite !len_app in LL.
  assert (I : i_stream it = false /\ i_entry it = e /\ i_usize it = len data /\ i_crc it = crc32_spec data).
  { remember (OpWhole e data) as o eqn:O. destruct L; try discriminate. injection O as -> ->. cbn. auto. }
  destruct I as (I1 & I2 & I3 & I4).
  destruct (copy_extras it a v f lx LO I1) as [LZ AX]; try lia; try (unfold i_csize; lia).
  pose proof (lo_local _ _ _ _ _ LO) as T. rewrite LZ, app_nil_r, I2 in T.
  assert (PL : Forall plain_field lx).
  { destruct (texts_split (en_filename e) (en_comment e) f (en_extra e) [] lx ltac:(constructor) PF) as (b & t & -> & P1 & P2); [rewrite app_nil_r; exact T|]. cbn [app]. now apply Forall_app. }
  pose proof W as (W1 & W2 & W3 & W4 & W5 & W6 & W7 & W8 & W9 & W10 & _). rewrite I2 in W3, W4, W5, W6.
  destruct RP as (R1 & R2 & R3 & R4 & R5 & R6 & R7 & R8 & R9 & R10 & R11 & R12 & R13 & R14).
  rewrite (lo_flags _ _ _ _ _ LO), flag_word_11, AX, (lo_name _ _ _ _ _ LO) in R1.
  rewrite (lo_flags _ _ _ _ _ LO), flag_word_11, AX, (lo_comment _ _ _ _ _ LO) in R2.
  unfold i_name in *. unfold i_comment in *. rewrite I2 in R1, R2, W1, W2. rewrite AX in R11.
  set (z := st_entry st) in *.
  (* the texts *)
  assert (TT : same_text (en_filename e) (en_filename z) /\ same_text (en_comment e) (en_comment z) /\
    (plain_text (en_filename z) /\ plain_text (en_comment z) \/
     text_settled XPath (en_filename z) (en_extra z) /\ text_settled XComment (en_comment z) (en_extra z))).
  { clear R3 R4 R5 R6 R7 R8 R9 R10 R12 R13 R14. remember (en_extra e) as xs eqn:X.
    destruct T as [xs P1 P2|xs ys zs NP SP1 SP2].
    - assert (G : forall mk s t, plain_text s -> sound_string s -> reads_as mk true xs (stored_bytes s) t -> same_text s t /\ plain_text t).
      { intros mk s t [P1' P2'] S R. assert (SB : stored_bytes s = zs_raw s) by (unfold stored_bytes; now rewrite P2').
        rewrite SB in R. destruct R as [_ U|_ U| | |]; try discriminate; [|elim U; now apply S].
        split; [now apply plain_same|]. easy. }
      destruct (G XPath _ _ P1 S1 R1) as [A1 A2]. destruct (G XComment _ _ P2 S2 R2) as [B1 B2]. auto.
    - destruct TX as [C|[C1 C2]]; [contradiction|].
      assert (V1 : view pr_path zs = view pr_path ys) by (apply (spelled_other pr_path XComment (en_comment e)); easy).
      assert (V2 : view pr_comment ys = view pr_comment xs) by (apply (spelled_other pr_comment XPath (en_filename e)); easy).
      split; [|split; [|right; split; right]].
      + apply (reads_as_view _ _ kind_path) in R1. rewrite V1 in R1. now apply (settled_back _ _ kind_path _ xs xs ys).
      + apply (reads_as_view _ _ kind_comment) in R2. now apply (settled_back _ _ kind_comment _ xs ys zs).
      + rewrite W1. apply (view_reads _ _ kind_path). rewrite R11, (heard_view pr_path zs empty_path). now apply (reads_as_view _ _ kind_path).
      + rewrite W2. apply (view_reads _ _ kind_comment). rewrite R11, (heard_view pr_comment zs empty_comment). now apply (reads_as_view _ _ kind_comment). }
  destruct TT as (T1 & T2 & T3). split.
  - unfold copy_of. cbn [fst snd]. split; [easy|]. split; [exact T1|]. split; [exact T2|]. split; [exact W3|]. split; [exact W4|]. split; [exact W5|].
    split; [exact W6|]. rewrite R11, heard_filter. now apply texts_filter in T.
  - unfold copyable. cbn [fst snd]. destruct WT as (X1 & X2 & X3 & X4 & X5 & X6 & X7). split; [split|].
    + unfold entry_wt. rewrite W4, W5, W6, W8, W9, W10, I4. unfold put_usize, put_csize, i_swapped. rewrite I1. cbn [andb]. unfold i_csize.
      split; [easy|]. split; [easy|]. split; [rewrite <- crc32_is_spec; apply crc32_bound|]. split; [lia|]. split; [lia|]. easy.
    + rewrite R11. now apply heard_plain.
    + split; [easy|]. split; [now apply (reads_sound _ _ _ _ _ R1)|]. split; [now apply (reads_sound _ _ _ _ _ R2)|]. exact T3.
Qed.

(** ** One generation *)
Lemma all_worked es : forall xs, map fst xs = copy_ops es -> Forall (fun x : wop * res unit => worked (snd x) = true) xs ->
  succeeded false xs = map (fun x => (false, OpWhole (fst x) (snd x))) es.
Proof.
  induction es as [|[e data] es IH]; intros [|[o r] xs] E W; cbn in E; try discriminate; [easy|].
  injection E as -> E. inversion W; subst. cbn [succeeded writes_entry andb no_after fst snd map] in *. rewrite H1. cbn [app]. f_equal. now apply IH.
Qed.
Lemma copy_ops_comment es : last_comment (copy_ops es) = [].
Proof. unfold last_comment. assert (H : forall c, fold_left comment_after (copy_ops es) c = c) by (induction es; intro c; [easy|apply IHes]). now rewrite H. Qed.
Lemma copy_ops_good es : Forall copyable es -> Forall op_good (copy_ops es).
Proof.
  induction 1 as [|[e data] es (F & L & _) _ IH]; constructor; [|exact IH]. cbn [fst snd] in *. split; [exact F|]. cbn. lia.
Qed.
Lemma copy_step cd cfg sched es : codec_ok cd -> Forall copyable es ->
  let '(xs, r, w) := run_archive cd sched (copy_ops es) in
  r = Ok tt -> Forall (fun x => worked (snd x) = true) xs -> manageable cfg (w_zip64 w) (len es) (w_bytes w) ->
  exists es', taken cd cfg (w_bytes w) es' /\ Forall2 copy_of es es' /\ Forall copyable es'.
Proof.
  intros K G. pose proof (round_trip_full cd cfg sched) as H.
  assert (MF : map fst (fst (fst (run_archive cd sched (copy_ops es)))) = copy_ops es).
  { unfold run_archive. pose proof (run_ops_map cd (copy_ops es) (zw_new sched)) as M. destruct (run_ops _ _ _) as [xs w]. now destruct (zw_close w). }
  specialize (fun s => H s _ K (copy_ops_good _ G)). destruct (run_archive cd sched (copy_ops es)) as [[xs r] w]. cbn [fst] in MF.
  intros R W (LD & EC & MEM). pose proof (all_worked es xs MF W) as S. rewrite S, copy_ops_comment in H.
  destruct (H (cursor (w_bytes w)) R ltac:(lia)) as (f & F & M & Z & C & F2 & RD); clear H.
  - intros _. eapply Forall_impl; [|exact W]. cbn. intros [o x] X. cbn in *. now destruct x.
  - now left.
  - exact EC.
  - reflexivity.
  - constructor.
  - unfold len. rewrite map_length. exact MEM.
  - assert (P : Forall2 (fun x st => copy_of x (st_entry st, snd x) /\ copyable (st_entry st, snd x)) es (f_entries f)).
    { clear -F2 G LD. revert F2. generalize (f_entries f). induction es as [|[e data] es IH]; intros l F2; cbn [map] in F2; inversion F2; subst; constructor.
      - destruct H1 as (it & a & v & g & lx & L1 & LO & SI & R1 & W). cbn [fst snd] in *. inversion G; subst. now apply (entry_copy cd false (w_bytes w) e data it a v g lx y).
      - apply IH; [now inversion G|assumption]. }
    exists (List.combine (map st_entry (f_entries f)) (map snd es)).
    assert (LEN : length (f_entries f) = length es) by (symmetry; exact (Forall2_len _ _ _ P)).
    split; [exists f; split; [exact M|split]|].
    + clear -LEN. revert LEN. generalize (f_entries f). induction es as [|x es IH]; intros [|y l] L; try discriminate; [easy|].
      cbn. f_equal. apply IH. now injection L.
    + intros i [e data] N. cbn [snd].
      assert (N' : exists e0, nth_error es (N.to_nat i) = Some (e0, data)).
      { clear -N LEN. revert N. generalize (N.to_nat i). revert LEN. generalize (f_entries f). induction es as [|x es IH]; intros [|y l] L [|n] N; try discriminate.
        - cbn in *. injection N as _ <-. exists (fst x). now destruct x.
        - cbn in *. apply (IH l); [now injection L|assumption]. }
      destruct N' as (e0 & N'). apply (RD i false (OpWhole e0 data) data).
      * apply (map_nth_error (fun x => (false, OpWhole (fst x) (snd x)))) in N'. exact N'.
      * constructor.
      * intros it L ST. exfalso. unfold i_swapped in ST. remember (OpWhole e0 data) as o. destruct L; try discriminate.
    + clear -P. induction P as [|x st es l [P1 P2] _ [IH1 IH2]]; [split; constructor|]. cbn. split; constructor; assumption.
Qed.

(** what is taken from an archive is determined *)
Lemma taken_det cd cfg d es es' : taken cd cfg d es -> taken cd cfg d es' -> es = es'.
Proof.
  intros (f & F & E & R) (f' & F' & E' & R'). rewrite F in F'. injection F' as <-. rewrite E in E'. clear E F.
  assert (L : length es = length es') by (apply (f_equal (@length _)) in E'; now rewrite !map_length in E').
  assert (X : forall n x y, nth_error es n = Some x -> nth_error es' n = Some y -> snd x = snd y).
  { intros n x y N1 N2. specialize (R (N.of_nat n) x). specialize (R' (N.of_nat n) y). rewrite Nat2N.id in *.
    rewrite (R N1) in R'. specialize (R' N2). congruence. }
  clear R R'. revert es' E' L X. induction es as [|[a b] es IH]; intros [|[a' b'] es'] E L X; try discriminate; [easy|].
  cbn in E. injection E as -> E. f_equal.
  - f_equal. apply (X 0%nat (a', b) (a', b')); reflexivity.
  - apply IH; [exact E|now injection L|]. intros n. apply (X (S n)).
Qed.
Lemma copy_of_refl x : copy_of x x.
Proof. unfold copy_of. repeat (split; [try apply same_text_refl; reflexivity|]). reflexivity. Qed.
Lemma copy_of_trans x y z : copy_of x y -> copy_of y z -> copy_of x z.
Proof.
  intros (A1 & A2 & A3 & A4 & A5 & A6 & A7 & A8) (B1 & B2 & B3 & B4 & B5 & B6 & B7 & B8). unfold copy_of.
  split; [congruence|]. split; [eapply same_text_trans; eassumption|]. split; [eapply same_text_trans; eassumption|]. repeat (split; [congruence|]). congruence.
Qed.
Lemma generations cd cfg n es es' : codec_ok cd -> Forall copyable es -> copies cd cfg n es es' ->
  Forall2 copy_of es es' /\ Forall copyable es'.
Proof.
  intros K G C. induction C as [es|n es es1 es2 C1 _ IH].
  - split; [|exact G]. clear. induction es; constructor; auto using copy_of_refl.
  - destruct C1 as (sched & C1). pose proof (copy_step cd cfg sched es K G) as H. destruct (run_archive cd sched (copy_ops es)) as [[xs r] w].
    destruct C1 as (R & W & M & T). destruct (H R W M) as (es' & T' & F & G'). rewrite <- (taken_det _ _ _ _ _ T T') in *.
    destruct (IH G') as [F' G2]. split; [|exact G2]. eapply Forall2_weaken; [|exact (Forall2_compose _ _ _ _ _ F F')].
    cbv beta. intros x z (y & A & B). now apply (copy_of_trans x y z).
Qed.

(** entries read from an archive, this crate's or not *)
Lemma reported_copyable a st data : member_ok a -> reported a st -> a_zip64 a = [] -> len data <= 0xFFFFFFFF ->
  (N.testbit (a_flags a) 11 = true -> is_utf8 (a_name a) /\ is_utf8 (a_comment a)) -> copyable (st_entry st, data).
Proof.
  intros MO (R1 & R2 & R3 & R4 & R5 & R6 & R7 & R8 & R9 & R10 & R11 & R12 & R13 & R14) Z L FL.
  destruct MO as (M1 & M2 & M3 & M4 & M5 & M6 & M7 & M8 & M9 & M10 & M11 & M12 & M13 & M14 & M15 & M16 & M17 & M18 & M19).
  unfold copyable. cbn [fst snd]. split; [split|].
  - unfold entry_wt. rewrite R7, R4, R5, R6, R8, R9. cbn [zd_date zd_time]. unfold fits in *. repeat (split; [try lia; try (destruct (a_u64 a), (a_c64 a); lia)|]). lia.
  - rewrite R11. apply heard_plain. unfold a_extras. rewrite Z. cbn [app]. now apply Forall_app.
  - split; [exact L|]. split; [now apply (reads_sound _ _ _ _ _ R1)|]. split; [now apply (reads_sound _ _ _ _ _ R2)|].
    destruct (N.testbit (a_flags a) 11).
    + destruct (FL eq_refl) as [U1 U2]. left. split.
      * remember true as t. destruct R1; try discriminate; subst; try contradiction; easy.
      * remember true as t. destruct R2; try discriminate; subst; try contradiction; easy.
    + right. split; right.
      * rewrite (reads_as_stored _ _ _ _ _ R1). apply (view_reads _ _ kind_path). rewrite R11, (heard_view pr_path _ empty_path). now apply (reads_as_view _ _ kind_path).
      * rewrite (reads_as_stored _ _ _ _ _ R2). apply (view_reads _ _ kind_comment). rewrite R11, (heard_view pr_comment _ empty_comment). now apply (reads_as_view _ _ kind_comment).
Qed.

(** ** C41 *)
Lemma attributes_back cd cfg sched s l : codec_ok cd -> Forall op_good l ->
  let '(xs, r, w) := run_archive cd sched l in
  let d := w_bytes w in
  r = Ok tt -> unambiguous cd cfg l xs (w_zip64 w) d -> s_data s = d -> nofail (s_sched s) ->
  exists f, fst (file cfg s) = Ok f /\
    Forall2 (fun x st => forall e, op_entry (snd x) = Some e ->
      entry_unix_permissions (st_entry st) = entry_unix_permissions e /\ en_eattr (st_entry st) = en_eattr e /\
      en_iattr (st_entry st) = en_iattr e /\ en_attr_compat (st_entry st) = en_attr_compat e /\ en_date (st_entry st) = en_date e /\
      en_compression (st_entry st) = en_compression e) (succeeded false xs) (f_entries f).
Proof.
  intros K G. pose proof (read_back cd cfg sched s l K G) as H. destruct (run_archive cd sched l) as [[xs r] w]. cbv zeta in *.
  intros R U SD NF. destruct (H R U SD NF) as (f & F & _ & _ & _ & F2 & _). exists f. split; [exact F|].
  eapply Forall2_weaken; [|exact F2]. intros x st (it & LV & AW & TK) e E. pose proof (leaves_entry _ _ _ _ _ LV E) as IE.
  destruct AW as (_ & _ & A3 & A4 & A5 & A6 & _). rewrite IE in *. unfold entry_unix_permissions. rewrite A6.
  destruct (en_attr_compat (st_entry st)), (en_attr_compat e). auto 10.
Qed.
