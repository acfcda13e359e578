(** Ordinary histories leave archives that can be told for what they are. *)
From Verif Require Import Base BaseFacts Crc32 CrcFacts ZString ZDate Headers HeadersFacts ExtraField ExtraFieldFacts Entry IO IOFacts
  Locator LocatorFacts Reader EntryReader Writer WriterFacts WholeFacts StreamFacts SpecFormat SpecCrc SpecUtf8 SpecArchive SpecRead SpecWrite
  EntryProofs ReadProofs WriteProofs RecordFacts HistFacts CloseFacts RoundTrip TextFacts ArchiveProofs OutcomeFacts RepeatFacts WriteSamples Zip64Proofs SpecOrdinary.
Arguments N.add : simpl never.
Arguments N.sub : simpl never.
Arguments N.mul : simpl never.

(** ** Looking at single bytes *)
Definition byte_at (d : bytes) (p : N) : option byte := nth_error d (N.to_nat p).
Lemma byte_app_r a b p : byte_at (a ++ b) (len a + p) = byte_at b p.
Proof. unfold byte_at, len. rewrite nth_error_app2 by lia. f_equal. lia. Qed.
Lemma byte_app_l a b p : p < len a -> byte_at (a ++ b) p = byte_at a p.
Proof. unfold byte_at, len. intro H. apply nth_error_app1. lia. Qed.
Lemma byte_in d p b : byte_at d p = Some b -> In b d.
Proof. apply nth_error_In. Qed.
Lemma found_bytes v d q i : found_at (le 4 v) d q -> i < 4 -> byte_at d (q + i) = byte_at (le 4 v) i.
Proof.
  intros (a & b & -> & <-) I. rewrite byte_app_r, byte_app_l; [reflexivity|]. exact I.
Qed.

Definition b0 (n : N) := n2b n.
Definition b1 (n : N) := n2b (n / 0x100).
Definition b2 (n : N) := n2b (n / 0x10000).
Definition b3 (n : N) := n2b (n / 0x1000000).
Lemma le2_bytes n : le 2 n = [b0 n; b1 n].
Proof. unfold le, b0, b1. cbn [seq map]. change (256 ^ N.of_nat 0) with 1. now rewrite N.div_1_r. Qed.
Lemma le4_bytes n : le 4 n = [b0 n; b1 n; b2 n; b3 n].
Proof. unfold le, b0, b1, b2, b3. cbn [seq map]. change (256 ^ N.of_nat 0) with 1. now rewrite N.div_1_r. Qed.
Lemma b0_is n b : b0 n = b -> n mod 256 = b2n b. Proof. intros <-. now rewrite <- b2n_n2b. Qed.
Lemma b1_is n b : b1 n = b -> n / 0x100 mod 256 = b2n b. Proof. intros <-. now rewrite <- b2n_n2b. Qed.
Lemma b2_is n b : b2 n = b -> n / 0x10000 mod 256 = b2n b. Proof. intros <-. now rewrite <- b2n_n2b. Qed.
Lemma b3_is n b : b3 n = b -> n / 0x1000000 mod 256 = b2n b. Proof. intros <-. now rewrite <- b2n_n2b. Qed.

Lemma end_bytes n s o c : end_record 0 0 n n s o c =
  [x50; x4b; x05; x06; x00; x00; x00; x00; b0 n; b1 n; b0 n; b1 n; b0 s; b1 s; b2 s; b3 s; b0 o; b1 o; b2 o; b3 o; b0 c; b1 c].
Proof. unfold end_record, record. cbn [map fst snd concat]. rewrite !le4_bytes, !le2_bytes. reflexivity. Qed.
Lemma central_bytes v1 v2 fl me ti da crc cs us nl xl cl di ia ea o : central_header v1 v2 fl me ti da crc cs us nl xl cl di ia ea o =
  [x50; x4b; x01; x02; b0 v1; b1 v1; b0 v2; b1 v2; b0 fl; b1 fl; b0 me; b1 me; b0 ti; b1 ti; b0 da; b1 da; b0 crc; b1 crc; b2 crc; b3 crc;
   b0 cs; b1 cs; b2 cs; b3 cs; b0 us; b1 us; b2 us; b3 us; b0 nl; b1 nl; b0 xl; b1 xl; b0 cl; b1 cl; b0 di; b1 di; b0 ia; b1 ia;
   b0 ea; b1 ea; b2 ea; b3 ea; b0 o; b1 o; b2 o; b3 o].
Proof. unfold central_header, record. cbn [map fst snd concat]. rewrite !le4_bytes, !le2_bytes. reflexivity. Qed.

(** ** The end record *)
Lemma no_second_end pre n s o c comment q : n < 0x4b50 -> s < 0x5000000 -> o < 0x5000000 -> free_of x06 comment ->
  found_at (le 4 0x06054b50) (pre ++ end_record 0 0 n n s o c ++ comment) q -> q <= len pre.
Proof.
  intros HN HS HO FC F. destruct (N.le_gt_cases q (len pre)) as [L|L]; [exact L|exfalso].
  assert (E : exists k, 0 < k /\ q = len pre + k) by (exists (q - len pre); lia). destruct E as (k & K & ->).
  assert (B : forall i, i < 4 -> byte_at (end_record 0 0 n n s o c ++ comment) (k + i) = byte_at (le 4 0x06054b50) i).
  { intros i I. rewrite <- (found_bytes _ _ _ i F I), <- N.add_assoc. symmetry. apply byte_app_r. }
  destruct (N.lt_ge_cases (k + 3) 22) as [L3|L3].
  - pose proof (B 0 eq_refl) as Q0. pose proof (B 1 eq_refl) as Q1. pose proof (B 2 eq_refl) as Q2. pose proof (B 3 eq_refl) as Q3.
    rewrite byte_app_l in Q0, Q1, Q2, Q3 by (change (len (end_record 0 0 n n s o c)) with 22; lia). clear B F.
    rewrite end_bytes in Q0, Q1, Q2, Q3. change (le 4 0x06054b50) with [x50; x4b; x05; x06] in *.
    assert (KS : In k [1;2;3;4;5;6;7;8;9;10;11;12;13;14;15;16;17;18]) by (cbn [In]; lia).
    cbn [In] in KS.
    repeat (destruct KS as [<-|KS];
      [cbv -[b0 b1 b2 b3] in Q0, Q1, Q2, Q3; try discriminate Q0; try discriminate Q1; try discriminate Q2; try discriminate Q3;
       injection Q0 as Q0; injection Q1 as Q1; injection Q2 as Q2; injection Q3 as Q3; try congruence;
       repeat match goal with
       | Q : b0 _ = _ |- _ => apply b0_is in Q
       | Q : b1 _ = _ |- _ => apply b1_is in Q
       | Q : b2 _ = _ |- _ => apply b2_is in Q
       | Q : b3 _ = _ |- _ => apply b3_is in Q
       end; cbv [b2n Byte.to_N] in *; lia|]). exact KS.
  - specialize (B 3 eq_refl). change (byte_at (le 4 0x06054b50) 3) with (Some x06) in B.
    replace (k + 3) with (len (end_record 0 0 n n s o c) + (k + 3 - 22)) in B by (change (len (end_record 0 0 n n s o c)) with 22; lia).
    rewrite byte_app_r in B. exact (FC (byte_in _ _ _ B)).
Qed.

(** ** The last directory record *)
Definition quiet_member (a : member) : Prop :=
  a_o64 a = false /\ a_d64 a = false /\ a_disk a = 0 /\ a_offset a < 0x5000000 /\
  free_of x07 (a_name a) /\ free_of x07 (a_comment a) /\ free_of x07 (spec_extras (a_extras a)) /\
  free_of x07 (le 2 (a_iattr a)) /\ free_of x07 (le 4 (a_eattr a)) /\ ~ In (b3 (a_eattr a)) [x50; x4b; x06].
Lemma small_byte n b : n < 256 -> b0 n = b -> n = b2n b.
Proof. intros H E. apply b0_is in E. lia. Qed.
Lemma no_locator_in a pre rest q : quiet_member a -> 20 <= len (member_record a) ->
  found_at (le 4 0x07064b50) (pre ++ member_record a ++ rest) q -> q + 20 <> len pre + len (member_record a).
Proof.
  intros (O64 & D64 & DI & OF & FN & FC & FX & FI & FE & F3) LM F E.
  assert (E' : exists k, q = len pre + k /\ k + 20 = len (member_record a)) by (exists (q - len pre); lia). clear E. destruct E' as (k & -> & E).
  assert (B : forall i, i < 4 -> byte_at (member_record a) (k + i) = byte_at (le 4 0x07064b50) i).
  { intros i I. rewrite <- (found_bytes _ _ _ i F I), <- N.add_assoc, byte_app_r, byte_app_l by lia. reflexivity. }
  unfold member_record in E, B. rewrite O64, D64, DI in *. cbn [kept] in *.
  set (t := a_name a ++ spec_extras (a_extras a) ++ a_comment a) in *.
  set (nl := len (a_name a)) in *. set (xl := len (spec_extras (a_extras a))) in *. set (cl := len (a_comment a)) in *.
  assert (T : len t = nl + xl + cl) by (unfold t; rewrite !len_app; unfold nl, xl, cl; lia).
  match type of E with context [central_header ?a ?b ?c ?d ?e ?f ?g ?h ?i ?j ?k ?l ?m ?n ?o ?p] => set (hd := central_header a b c d e f g h i j k l m n o p) in * end.
  rewrite len_app in E. change (len hd) with 46 in E.
  destruct (N.lt_ge_cases (k + 3) 46) as [L3|L3].
  - pose proof (B 0 eq_refl) as Q0. pose proof (B 1 eq_refl) as Q1. pose proof (B 2 eq_refl) as Q2. pose proof (B 3 eq_refl) as Q3.
    rewrite byte_app_l in Q0, Q1, Q2, Q3 by (change (len hd) with 46; lia). clear B F. unfold hd in *. clear hd.
    rewrite central_bytes in Q0, Q1, Q2, Q3. change (le 4 0x07064b50) with [x50; x4b; x06; x07] in *.
    rewrite le2_bytes in FI. rewrite le4_bytes in FE. unfold free_of in FI, FE. cbn [In] in FI, FE, F3.
    assert (KS : In k [26;27;28;29;30;31;32;33;34;35;36;37;38;39;40;41;42]) by (cbn [In]; lia).
    cbn [In] in KS. clearbody nl xl cl. clear FN FC FX.
    repeat (destruct KS as [<-|KS];
      [cbv -[b0 b1 b2 b3 a_made_by a_needed a_flags a_method a_time a_date a_crc a_csize a_usize a_iattr a_eattr a_offset kept compression_to] in Q0, Q1, Q2, Q3;
       try discriminate Q0; try discriminate Q1; try discriminate Q2; try discriminate Q3;
       injection Q0 as Q0; injection Q1 as Q1; injection Q2 as Q2; injection Q3 as Q3; try (exfalso; tauto); try (symmetry in Q0, Q1, Q2; exfalso; tauto);
       try (apply b0_is in Q3; cbv [b2n Byte.to_N] in Q3; lia); try (apply b1_is in Q3; cbv [b2n Byte.to_N] in Q3; lia);
       try (apply b3_is in Q3; cbv [b2n Byte.to_N] in Q3; lia)|]). exact KS.
  - specialize (B 3 eq_refl). change (byte_at (le 4 0x07064b50) 3) with (Some x07) in B.
    replace (k + 3) with (len hd + (k + 3 - 46)) in B by (change (len hd) with 46; lia).
    rewrite byte_app_r in B. apply byte_in in B. unfold t in B. apply in_app_or in B as [B|B]; [exact (FN B)|].
    apply in_app_or in B as [B|B]; [exact (FX B)|exact (FC B)].
Qed.

(** ** Few calls are never too many *)
Lemma few_not_many cd l : enc_takes cd -> Forall op_good l -> forall w, w_offset w = len (w_bytes w) -> len (w_cds w) + len l <= 65535 ->
  let '(xs, w') := run_ops cd l w in len (w_bytes w') < 0x10000000000000000 ->
  Forall (fun x => too_many (snd x) = false) xs /\ len (w_cds w') <= len (w_cds w) + len l.
Proof.
  intros T GS. induction GS as [|o l G _ IH]; intros w OF LW; cbn [run_ops].
  { intros _. split; [constructor|]. unfold len. cbn [length]. lia. }
  pose proof (run_op_step cd o w T G OF) as S. pose proof (grows_run_op cd o w) as EV.
  destruct (run_op cd o w) as [r w1]. cbn [snd] in EV. pose proof (evol_offset _ _ EV OF) as OF1.
  specialize (IH w1 OF1). pose proof (evol_run_ops cd l w1) as EV2. destruct (run_ops cd l w1) as [xs w2]. cbn [snd] in EV2.
  intro LB. assert (LB1 : len (w_bytes w1) < 0x10000000000000000) by (destruct EV2 as ((b & B & _) & _); rewrite B, len_app in LB; lia).
  assert (LO : len (o :: l) = 1 + len l) by (unfold len; cbn [length]; lia). rewrite LO in *.
  destruct (S LB1) as [C _ X|c it img _ C _ _ _ _ _ _ X].
  - rewrite C in *. specialize (IH ltac:(lia) LB). destruct IH as [I1 I2]. split; [constructor; [exact X|exact I1]|lia].
  - assert (LC : len (w_cds w1) = len (w_cds w) + 1) by (rewrite C, len_app; reflexivity).
    rewrite LC in *. specialize (IH ltac:(lia) LB). destruct IH as [I1 I2]. split; [|lia]. constructor; [|exact I1]. cbn [snd].
    replace (65535 <? len (w_cds w) + 1) with false in X by lia. cbn [andb] in X. destruct X as [X _]. now destruct r as [|[]|].
Qed.

(** ** Entries of an archive without ZIP64 *)
Lemma quiet_it body it a : written_in body it a -> in64 it || off64 it = false -> ordinary_entry (i_entry it) -> i_off it < 0x5000000 ->
  quiet_member a.
Proof.
  intros (v & f & lx & LO & SI) Z (PN & PC & FN & FC & FX & FI & FE & F3) OF. apply orb_false_iff in Z as [Z1 Z2].
  assert (LZ : local_zip64 it = []).
  { unfold local_zip64. unfold in64 in Z1. destruct (i_stream it); [now apply negb_false_iff in Z1 as ->|now rewrite Z1]. }
  assert (AZ : a_zip64 a = []).
  { unfold a_zip64. now rewrite (lo_u64 _ _ _ _ _ LO), (lo_c64 _ _ _ _ _ LO), (lo_o64 _ _ _ _ _ LO), (lo_d64 _ _ _ _ _ LO), Z1, Z2. }
  assert (AX : a_extras a = en_extra (i_entry it)).
  { destruct (lo_extras _ _ _ _ _ LO) as (b & c & E & B & A). unfold a_extras. rewrite AZ, A, B, Z1, Z2. cbn [negb andb app].
    pose proof (lo_local _ _ _ _ _ LO) as X. rewrite LZ, app_nil_r in X. rewrite LZ in E. cbn [app] in E. rewrite app_nil_r, <- E.
    destruct X as [xs _ _|xs ys zs N _ _]; [reflexivity|]. elim N. now split. }
  unfold quiet_member. rewrite AX, (lo_o64 _ _ _ _ _ LO), (lo_d64 _ _ _ _ _ LO), (lo_disk _ _ _ _ _ LO), (lo_offset _ _ _ _ _ LO),
    (lo_name _ _ _ _ _ LO), (lo_comment _ _ _ _ _ LO), (lo_iattr _ _ _ _ _ LO), (lo_eattr _ _ _ _ _ LO).
  unfold i_name, i_comment, stored_bytes. destruct PN as [_ ->], PC as [_ ->]. ands; assumption || reflexivity.
Qed.
Lemma leaves_entry cd no64 o it : leaves cd no64 o it -> op_entry o = Some (i_entry it).
Proof. now destruct 1. Qed.
Lemma recorded_ops no64 xs : Forall (fun x => In (snd x) (map fst xs)) (recorded no64 xs).
Proof.
  revert no64. induction xs as [|[o r] xs IH]; intro no64; [constructor|]. cbn [recorded map fst]. apply Forall_app. split.
  - destruct (_ && _); repeat constructor.
  - eapply Forall_impl; [|apply IH]. intros x I. now right.
Qed.
Lemma recorded_length no64 xs : len (recorded no64 xs) <= len xs.
Proof.
  revert no64. induction xs as [|[o r] xs IH]; intro no64; [reflexivity|]. cbn [recorded]. rewrite len_app. specialize (IH (no_after no64 o)).
  destruct (_ && _); unfold len in *; cbn [length]; lia.
Qed.

Lemma members_app l m : members (l ++ m) = members l ++ members m.
Proof. unfold members. now rewrite map_app, concat_app. Qed.
Lemma len_member a : 46 <= len (member_record a).
Proof. unfold member_record. rewrite len_app. change (len (central_header _ _ _ _ _ _ _ _ _ _ _ _ _ _ _ _)) with 46. lia. Qed.

Lemma shape_unambiguous cd cfg l xs d z body its ms : shape cd l xs d z body its ms -> map fst xs = l -> Forall (fun x => too_many (snd x) = false) xs ->
  ordinary l -> entry_mem_size cfg <= 0x1000000000000 -> len d < 0x5000000 ->
  z = true \/ succeeded false xs <> [] /\ Forall ordinary_op l \/ len d < 42 + len (last_comment l) -> unambiguous cd cfg l xs z d.
Proof.
  intros [H1 H2 H3 H4 H5 H6 H7 H8] RM TM (FEW & LC & FC) MEM LD CASES.
  pose proof (f_equal len H1) as LE. rewrite !len_app in LE.
  assert (LX : len xs = len l) by (unfold len; rewrite <- RM, map_length; reflexivity).
  assert (RS : recorded false xs = succeeded false xs) by now apply recorded_succeeded.
  assert (LM : len ms <= len l).
  { pose proof (recorded_length false xs). pose proof (Forall2_len _ _ _ H2). pose proof (Forall2_len _ _ _ H3). unfold len in *. lia. }
  pose proof (succeeded_short xs false) as LS.
  split; [lia|]. split; [intros _; exact TM|]. split; [left; lia|]. split; [|nia]. split; [exact LC|].
  assert (EE : archive_end z (len ms) (len (members ms)) (len body) (last_comment l) =
    (if z then zip64_end 44 0x033F 46 0 0 (len ms) (len ms) (len (members ms)) (len body) ++ zip64_end_locator 0 (len body + len (members ms)) 1 else []) ++
    end_record 0 0 (len ms) (len ms) (len (members ms)) (len body) (len (last_comment l) mod 0x10000) ++ last_comment l).
  { unfold archive_end. now rewrite !N.min_l by lia. }
  split.
  - intros q Q. rewrite H1, EE in Q. rewrite !app_assoc in Q. rewrite <- (app_assoc _ (end_record _ _ _ _ _ _ _)) in Q.
    apply no_second_end in Q; [|lia|lia|lia|exact FC]. rewrite H1, EE, !len_app, len_end. rewrite !len_app in Q. lia.
  - intros Z q Q E. rewrite Z in *. cbn [app] in EE. destruct CASES as [C|[[NE OO]|C]]; [discriminate C| |lia].
    assert (OR : Forall (fun x => ordinary_op (snd x)) (recorded false xs)).
    { eapply Forall_impl; [|apply recorded_ops]. rewrite Forall_forall in OO. cbv beta. intros x I. rewrite RM in I. now apply OO. }
    destruct (exists_last (l := ms)) as (ms' & a & EM).
    { intros ->. apply NE. rewrite <- RS. destruct (recorded false xs) as [|x y]; [reflexivity|]. inversion H2; subst. inversion H3. }
    assert (QA : quiet_member a).
    { assert (LB : len body < 0x5000000) by lia. clear H1. rewrite EM in H3. apply Forall2_app_inv_r in H3 as (i1 & i2 & _ & H3 & EI). inversion H3 as [|it a' t1 t2 W X E1 E2]; subst. inversion X; subst.
      assert (IN : In it (i1 ++ [it])) by (apply in_or_app; right; now left).
      destruct W as [W _]. apply (quiet_it body it a W).
      + rewrite Forall_forall in H5. specialize (H5 it IN). destruct (in64 it || off64 it); [now specialize (H5 eq_refl)|reflexivity].
      + apply Forall2_app_inv_r in H2 as (x1 & x2 & _ & H2 & ER). inversion H2 as [|x it' y1 y2 LV X']; subst. inversion X'; subst.
        rewrite ER, Forall_forall in OR. specialize (OR x ltac:(apply in_or_app; right; now left)).
        unfold ordinary_op in OR. now rewrite (leaves_entry _ _ _ _ LV) in OR.
      + destruct W as (v & f & lx & _ & (b & c & EB & <-)). rewrite EB, !len_app in LB. lia. }
    rewrite EM, members_app in *. replace (members [a]) with (member_record a) in * by (unfold members; cbn; now rewrite app_nil_r).
    rewrite EE, <- !app_assoc, (app_assoc body) in H1.
    rewrite H1 in Q. apply (no_locator_in a _ _ _ QA) in Q; [|pose proof (len_member a); lia]. apply Q.
    rewrite H1 in E. rewrite !len_app, len_end in E. rewrite len_app. lia.
Qed.
Lemma ordinary_unambiguous cd cfg sched l : enc_takes cd -> Forall op_good l -> ordinary l -> entry_mem_size cfg <= 0x1000000000000 ->
  let '(xs, r, w) := run_archive cd sched l in
  r = Ok tt -> len (w_bytes w) < 0x5000000 ->
  w_zip64 w = true \/ succeeded false xs <> [] /\ Forall ordinary_op l \/ len (w_bytes w) < 42 + len (last_comment l) ->
  unambiguous cd cfg l xs (w_zip64 w) (w_bytes w).
Proof.
  intros T G O MEM. pose proof (archive_shape cd sched l T G) as SH.
  pose proof (few_not_many cd l T G (zw_new sched) eq_refl) as FM. pose proof (run_ops_map cd l (zw_new sched)) as RM.
  unfold run_archive in *. destruct (run_ops cd l (zw_new sched)) as [xs w0]. cbn [fst snd] in *. destruct (zw_close w0) as [r w].
  intros R LD CASES. destruct (SH R ltac:(lia)) as (its & ms & S). pose proof (f_equal len (sh_bytes _ _ _ _ _ _ _ _ S)) as LE. rewrite !len_app in LE.
  destruct O as (FEW & O). destruct (FM ltac:(cbn; lia) ltac:(lia)) as [TM _].
  exact (shape_unambiguous _ _ _ _ _ _ _ _ _ S RM TM (conj FEW O) MEM LD CASES).
Qed.
