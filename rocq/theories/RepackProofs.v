(** Proofs: entries read from an archive that passes the strict check, written to another one. *)
From Verif Require Import Base BaseFacts SpecFormat SpecCrc SpecUtf8 SpecArchive SpecRead SpecWrite SpecCopy SpecStrict SpecAccept SpecExact SpecRepack ZString ZDate Headers HeadersFacts ExtraField Entry
  IO Reader EntryReader Writer HistFacts CloseFacts RoundTrip Samples StrictProofs AcceptProofs ExactProofs SeenProofs CopyProofs.

(** ** Entries as they were read can be handed to the writer *)
Lemma rows_each l rs : rows l rs -> Forall (fun r => exists l m, read_row l r m) rs.
Proof. induction 1; constructor; eauto. Qed.
Lemma some_fields_ids l xs : some_fields l xs -> Forall (fun f => fst f < 0x10000) xs.
Proof.
  induction 1 as [|l id n m p r xs _ N _ _ IH]; [constructor|]. constructor; [|exact IH]. cbn [fst].
  apply nums_fs in N as (_ & _ & W). inversion W as [|? ? W1 _]; subst. now apply in_width_of in W1.
Qed.
Lemma unwidened us cs fs xs : Forall2 (field_is us cs) fs xs -> Forall (fun f => match f with XZip64 _ => False | _ => True end) xs -> zip64_of fs = None.
Proof.
  induction 1 as [|[id p] x fs xs F _ IH]; intro N; [reflexivity|]. inversion N as [|? ? N1 N2]; subst. cbn [zip64_of].
  destruct x as [z|u|u|i n c]; [contradiction| | |]; unfold field_is in F; cbn [fst snd] in F.
  - destruct F as [-> _]. now apply IH.
  - destruct F as [-> _]. now apply IH.
  - destruct F as (-> & F & _). replace (i =? 1) with false by (symmetry; now apply N.eqb_neq). now apply IH.
Qed.
Lemma told_fine l r m st : read_row l r m -> tells r st -> unwide (st_entry st) -> entry_fine (st_entry st).
Proof.
  intros R (T1 & _ & _ & _ & _ & T6 & T7 & _ & T9 & T10 & T11 & _) N. unfold unwide in N. pose proof (unwidened _ _ _ _ T1 N) as Z.
  unfold SpecExact.placed in T7. rewrite Z in T7. unfold next8 in T7. change (8 <=? len []) with false in T7. rewrite !andb_false_r in T7. injection T7 as U C _.
  destruct R as [made needed flags method time date crc cs us nl xl cl disk ia ea off m xs NU SF]. cbn [w_usize w_csize w_crc w_date w_time w_iattr w_eattr w_fields] in *.
  apply nums_fs in NU as (_ & _ & W). cbn [List.combine] in W.
  repeat match goal with H : Forall in_width (_ :: _) |- _ => pose proof (in_width_of _ _ (Forall_inv H)); apply Forall_inv_tail in H end.
  cbn [N.of_nat Pos.of_succ_nat Pos.succ] in *. change (256 ^ 2) with 0x10000 in *. change (256 ^ 4) with 0x100000000 in *.
  split.
  - unfold entry_wt. rewrite T9, T6, U, C, T10, T11. cbn [zd_date zd_time]. repeat split; lia.
  - pose proof (some_fields_ids _ _ SF) as I. clear - T1 N I. induction T1 as [|[id p] x fs xs F _ IH]; [constructor|].
    inversion N as [|? ? N1 N2]; subst. inversion I as [|? ? I1 I2]; subst. constructor; [|now apply IH]. cbn [fst] in I1.
    destruct x as [z|u|u|i n c]; [contradiction| | |]; unfold field_is in F; cbn [fst snd] in F; cbn [plain_field].
    + now destruct F as (_ & _ & F).
    + now destruct F as (_ & _ & F).
    + destruct F as (-> & F1 & F2 & F3 & -> & ->). auto.
Qed.
Lemma opened_fine cfg s f st : fst (file cfg s) = Ok f -> In st (f_entries f) -> unwide (st_entry st) -> entry_fine (st_entry st).
Proof.
  intros O I. destruct (file_reads cfg s f O) as (x & rs & (_ & RW & _) & F & _). apply rows_each in RW.
  revert I. induction F as [|r e rs es T F IH]; intro I; [contradiction|]. inversion RW as [|? ? (l & m & R1) R2]; subst.
  destruct I as [<-|I]; [now apply (told_fine l r m)|now apply IH].
Qed.
(** ... and copied any number of times *)
Lemma opened_copyable cfg s f x rs st data : fst (file cfg s) = Ok f -> says (s_data s) x rs -> Forall truthful rs -> In st (f_entries f) ->
  unwide (st_entry st) -> len data <= 0xFFFFFFFF -> copyable (st_entry st, data).
Proof.
  intros O SA TR I N L. split; [exact (opened_fine cfg s f st O I N)|]. split; [exact L|]. cbn [fst].
  destruct (file_reads cfg s f O) as (x' & rs' & SA' & F & _). destruct (says_unique _ _ _ _ _ SA' SA) as [-> ->]. clear - F TR I.
  induction F as [|r e rs es T F IH]; [contradiction|]. inversion TR as [|? ? T1 T2]; subst. destruct I as [->|I]; [|now apply IH].
  destruct T as (_ & R1 & R2 & _). split; [exact (reads_sound _ _ _ _ _ R1)|]. split; [exact (reads_sound _ _ _ _ _ R2)|].
  unfold truthful in T1. destruct (N.testbit (w_flags r) 11).
  - destruct (T1 eq_refl) as [U1 U2]. left. split.
    + inversion R1; subst; try discriminate; try contradiction. now split.
    + inversion R2; subst; try discriminate; try contradiction. now split.
  - right. split; right; [rewrite (AcceptProofs.reads_as_stored _ _ _ _ _ R1)|rewrite (AcceptProofs.reads_as_stored _ _ _ _ _ R2)]; assumption.
Qed.

(** ** From archive to archive *)
Lemma taken_each cd cfg d f es vs : mem_new cfg d = Ok {| m_data := d; m_file := f |} -> map st_entry (f_entries f) = map fst es ->
  (forall i x, nth_error es (N.to_nat i) = Some x -> mem_read_entry cd {| m_data := d; m_file := f |} i = Ok (snd x)) ->
  Forall2 shown vs (f_entries f) -> (forall i v, nth_error vs (N.to_nat i) = Some v -> mem_read_entry cd {| m_data := d; m_file := f |} i = Ok (v_content v)) ->
  Forall2 (fun v x => exists st, In st (f_entries f) /\ st_entry st = fst x /\ shown v st /\ v_content v = snd x) vs es.
Proof.
  intros _. generalize {| m_data := d; m_file := f |} as m. generalize (f_entries f) as sts. intros sts m E RE SH RV.
  assert (X : forall k sts' vs' es', map st_entry sts' = map fst es' -> Forall2 shown vs' sts' -> incl sts' sts ->
    (forall i x, nth_error es' i = Some x -> nth_error es (k + i) = Some x) -> (forall i v, nth_error vs' i = Some v -> nth_error vs (k + i) = Some v) ->
    Forall2 (fun v x => exists st, In st sts /\ st_entry st = fst x /\ shown v st /\ v_content v = snd x) vs' es').
  { intros k sts' vs' es' E' F. revert k es' E'. induction F as [|v st vs' sts' S F IH]; intros k es' E' IN NE NV.
    - destruct es'; [constructor|discriminate].
    - destruct es' as [|x es']; [discriminate|]. cbn [map] in E'. injection E' as E1 E2. constructor.
      + exists st. split; [apply IN; now left|]. split; [exact E1|]. split; [exact S|].
        specialize (NE 0%nat x eq_refl). specialize (NV 0%nat v eq_refl). rewrite Nat.add_0_r in *.
        specialize (RE (N.of_nat k) x). specialize (RV (N.of_nat k) v). rewrite Nat2N.id in *. rewrite (RV NV) in RE. specialize (RE NE). now injection RE.
      + apply (IH (Datatypes.S k)); [exact E2|intros y Y; apply IN; now right| |].
        * intros i y Y. rewrite Nat.add_succ_l, <- Nat.add_succ_r. now apply NE.
        * intros i y Y. rewrite Nat.add_succ_l, <- Nat.add_succ_r. now apply NV. }
  apply (X 0%nat sts); try assumption; try (intros; assumption). apply incl_refl.
Qed.
Lemma copies_whole es : Forall (fun o => dropped o = false) (copy_ops es).
Proof. apply Forall_map, Forall_forall. reflexivity. Qed.
Lemma copies_done es : forall xs, map fst xs = copy_ops es -> Forall (fun x : wop * res unit => worked (snd x) = true) xs ->
  succeeded false xs = map (fun x => (false, OpWhole (fst x) (snd x))) es.
Proof.
  induction es as [|x es IH]; intros xs E W; (destruct xs as [|[o r] xs]; [|]); try discriminate; [reflexivity|]. cbn [copy_ops map fst] in E. injection E as -> E.
  inversion W as [|? ? W1 W2]; subst. cbn [snd] in W1. rewrite succeeded_cons. cbn [writes_entry]. rewrite W1. cbn [andb app map no_after]. now rewrite (IH xs E W2).
Qed.
Lemma calls_made cd sched l : map fst (fst (fst (run_archive cd sched l))) = l.
Proof.
  unfold run_archive. generalize (zw_new sched) as w. induction l as [|o l IH]; intro w; cbn [run_ops].
  - now destruct (zw_close w).
  - destruct (run_op cd o w) as [r w1]. specialize (IH w1). destruct (run_ops cd l w1) as [xs w2]. destruct (zw_close w2) as [r2 w3]. cbn [fst map] in *. now f_equal.
Qed.
Lemma copies_comment es : last_comment (copy_ops es) = [].
Proof. unfold last_comment. induction es as [|x es IH]; [reflexivity|exact IH]. Qed.

Lemma taken_strict cfg cd d : strict cd d = true -> plain_archive d -> len d <= u64_max ->
  (forall rs, SpecAccept.directory d = Some rs -> len rs * entry_mem_size cfg <= isize_max) ->
  exists vs es, sights cd d = Some vs /\ taken cd cfg d es /\ map v_content vs = map snd es.
Proof.
  intros ST PL LD MEM. destruct (accepted_mem cfg cd d ST PL LD MEM) as (vs & m & S & O & F & R).
  assert (m = {| m_data := d; m_file := m_file m |}) as EM.
  { unfold mem_new in O. destruct (fst (file cfg (cursor d))); cbn in O; try discriminate. now injection O as <-. }
  exists vs, (List.combine (map st_entry (f_entries (m_file m))) (map v_content vs)).
  assert (L : length vs = length (f_entries (m_file m))) by (eapply Forall2_len; exact F).
  split; [exact S|]. split.
  - exists (m_file m). rewrite <- EM. split; [exact O|]. split.
    + clear - L. revert L. generalize (f_entries (m_file m)) as sts. induction vs as [|v vs IH]; intros [|st sts] L; try discriminate; [reflexivity|].
      cbn [map List.combine fst]. f_equal. apply IH. now injection L.
    + intros i x NX. assert (NV : exists v, nth_error vs (N.to_nat i) = Some v /\ v_content v = snd x).
      { clear - NX L. revert NX L. generalize (f_entries (m_file m)) as sts. generalize (N.to_nat i) as k. intro k. revert vs.
        induction k as [|k IH]; intros [|v vs] [|st sts] NX L; try discriminate; cbn [map List.combine nth_error] in NX.
        - injection NX as <-. now exists v.
        - injection L as L. exact (IH vs sts NX L). }
      destruct NV as (v & NV & <-). now apply R.
  - clear - L. revert L. generalize (f_entries (m_file m)) as sts. induction vs as [|v vs IH]; intros [|st sts] L; try discriminate; [reflexivity|].
    cbn [map List.combine snd]. f_equal. apply IH. now injection L.
Qed.
Lemma repacked cd cfg sched d es vs : codec_ok cd -> strict cd d = true -> plain_archive d -> len d <= u64_max ->
  (forall rs, SpecAccept.directory d = Some rs -> len rs * entry_mem_size cfg <= isize_max) ->
  taken cd cfg d es -> sights cd d = Some vs -> Forall portable es ->
  let '(xs, r, w) := run_archive cd sched (copy_ops es) in
  r = Ok tt -> Forall (fun x => worked (snd x) = true) xs -> len (w_bytes w) <= 0xFFFFFFFF -> end_clear (w_zip64 w) [] (w_bytes w) ->
  (strict cd (w_bytes w) = true <-> Forall (fun x => tidy_name (fst x)) es) /\
  exists vs', sights cd (w_bytes w) = Some vs' /\ Forall2 same_sight vs vs'.
Proof.
  intros K ST PL LD MEM (f & O & EM & RE) SI PO.
  destruct (accepted_mem cfg cd d ST PL LD MEM) as (vs0 & m & S & O2 & F & R). rewrite SI in S. injection S as <-. rewrite O in O2. injection O2 as <-. cbn [m_file] in *.
  pose proof (taken_each cd cfg d f es vs O EM RE F R) as TE.
  assert (OP : fst (file cfg (cursor d)) = Ok f).
  { unfold mem_new in O. destruct (fst (file cfg (cursor d))); cbn in O; try discriminate. now injection O as ->. }
  assert (G : Forall op_good (copy_ops es)).
  { apply Forall_map. clear - TE PO OP. induction TE as [|v x vs es (st & I & E & _) _ IH]; constructor.
    - inversion PO as [|? ? (P1 & P2) _]; subst. split; [|unfold op_sized; lia]. unfold op_fine. cbn [op_entry]. rewrite <- E in *. now apply (opened_fine cfg (cursor d) f).
    - inversion PO; subst. now apply IH. }
  pose proof (strict_exact cd sched (copy_ops es) K G (copies_whole es)) as SO. pose proof (strict_seen cd sched (copy_ops es) K G (copies_whole es)) as SS.
  pose proof (calls_made cd sched (copy_ops es)) as AC.
  destruct (run_archive cd sched (copy_ops es)) as [[xs r] w]. cbn [fst] in AC. intros RO WK LB EC. rewrite copies_comment in *.
  rewrite (copies_done es xs AC WK) in *.
  assert (CK : Forall (soundly cd) (map (fun x => (false, OpWhole (fst x) (snd x))) es)).
  { apply Forall_map. eapply Forall_impl; [|exact PO]. now intros x (_ & P2). }
  split; [rewrite (SO RO WK LB EC CK), Forall_map; reflexivity|]. destruct (SS RO WK LB EC CK) as (vs' & S' & F'). exists vs'. split; [exact S'|].
  clear - TE F'. revert vs' F'. induction TE as [|v x vs es (st & _ & E & SH & C) _ IH]; intros vs' F'; inversion F' as [|? v' ? vs'' S1 S2]; subst; constructor; [|now apply IH].
  cbn [snd] in S1. destruct S1 as (e & OE & A1 & A2 & A3 & A4 & A8 & A9 & A10 & A5 & A6 & A7). cbn [op_entry] in OE. injection OE as <-. cbn [gives] in A5.
  destruct SH as (B1 & _ & B3 & _ & B5 & _ & B7 & _ & B9 & _ & _ & B10 & B11 & B12). rewrite E in *.
  unfold same_sight. rewrite A1, A3, A4, A6, A7, A8, A9, A10, A5, B1, B9, B10, B11, B12, <- C, <- B5, <- B7. cbn [zd_date zd_time].
  repeat split. rewrite (method_of_inv _ _ A2), (method_of_inv _ _ B3). reflexivity.
Qed.
