(** Witnesses behind four gigabytes of data: an extra field refused after the entry was written, and a size that is
    taken for a placeholder. *)
From Verif Require Import Base BaseFacts Crc32 CrcFacts ZString ZDate Headers HeadersFacts ExtraField ExtraFieldFacts Entry IO IOFacts
  Locator LocatorFacts Reader EntryReader Writer WriterFacts WholeFacts StreamFacts SpecFormat SpecCrc SpecUtf8 SpecArchive SpecRead SpecWrite
  EntryProofs ReadProofs WriteProofs RecordFacts HistFacts CloseFacts RoundTrip TextFacts ArchiveProofs RepeatFacts OutcomeFacts Samples WriteSamples ManyFiles.
Arguments N.add : simpl never.
Arguments N.sub : simpl never.
Arguments N.mul : simpl never.

Lemma nat_of k : exists n, N.of_nat n = k.
Proof. exists (N.to_nat k). apply N2Nat.id. Qed.
Definition long_op (n : nat) : wop := OpWhole (tiny []) (repeat x00 n).
Lemma long_good n : N.of_nat n = 0xFFFFFFFF -> op_good (long_op n).
Proof.
  intro E. split; [apply (tiny_good [])|]. cbn [op_sized long_op]. unfold len. rewrite repeat_length, E. reflexivity.
Qed.
Lemma long_runs n : N.of_nat n = 0xFFFFFFFF ->
  exists w, run_op toy (long_op n) (zw_new []) = (Ok tt, w) /\ w_sched w = [] /\ w_offset w = 4294967326 /\ w_force_no w = false /\ len (w_cds w) = 1.
Proof.
  intro E. assert (L : len (repeat x00 n) = 0xFFFFFFFF) by (unfold len; now rewrite repeat_length).
  destruct (whole_once toy (tiny []) (repeat x00 n) eq_refl eq_refl ltac:(split; reflexivity) ltac:(split; reflexivity) ltac:(reflexivity) ltac:(reflexivity)
    ltac:(rewrite L; discriminate) (zw_new []) eq_refl ltac:(discriminate)) as (w & R & S & O & C & F & _).
  exists w. split; [exact R|]. split; [exact S|]. split; [|split; [exact F|exact C]].
  rewrite O. unfold step_len. rewrite L. reflexivity.
Qed.

Definition wide (m : nat) : zentry := mk_entry (utf8 [x61]) (utf8 []) Stored [XUnknown 0xCAFE (N.of_nat m) (repeat x00 m)].
Lemma wide_count m : N.of_nat m = 65526 -> fields_count_bytes (en_extra (wide m)) = 65530.
Proof. intro E. unfold wide, mk_entry. cbn. unfold len. rewrite ?repeat_length, ?E. reflexivity. Qed.
Lemma wide_no_disk m : Forall no_disk (en_extra (wide m)). Proof. repeat constructor. Qed.
Lemma wide_len m : N.of_nat m = 65526 -> len (spec_extras (en_extra (wide m))) = 65530.
Proof. intro E. rewrite <- (count_len _ (wide_no_disk m)). now apply wide_count. Qed.
Lemma late_refusal m w : N.of_nat m = 65526 -> w_sched w = [] -> w_offset w = 4294967326 -> w_force_no w = false ->
  let '(r, w') := run_op toy (OpWholePre (wide m) []) w in
  r = Err ExtraFieldTooLarge /\ w_offset w' = w_offset w + 65561.
Proof.
  intros E S O F. cbn [run_op]. unfold write_entry_whole_precompressed. rewrite whole_body_eq. cbv zeta. rewrite F, andb_false_r.
  assert (B : wh_big (wide m) [] = false) by reflexivity.
  assert (OV : over (w_offset w) = true) by (rewrite O; reflexivity).
  assert (E2 : wh_e2 (wide m) [] (w_offset w) = wide m) by reflexivity.
  assert (E3 : wh_e3 (wide m) [] (w_offset w) = wide m) by (unfold wh_e3; rewrite E2; reflexivity).
  assert (CB : fields_count_bytes (en_extra (wide m)) = 65530) by now apply wide_count.
  unfold wh_refused. cbv zeta. rewrite E3, CB. change (65530 <? 65536) with true. cbn [negb].
  change (len (basic_bytes (en_filename (wide m)))) with 1. change (len (basic_bytes (en_comment (wide m)))) with 0. cbn [N.ltb N.compare negb].
  assert (LT : late (wide m) [] (w_offset w) = true) by (unfold late; now rewrite B, OV).
  unfold wh_e4. cbv zeta. rewrite LT, E3. unfold set_extra at 1. cbn [en_extra].
  match goal with |- context [fields_count_bytes ?l] => assert (C2 : fields_count_bytes l = 65542) end.
  { change (fields_count_bytes ([XUnknown 0xCAFE (N.of_nat m) (repeat x00 m)] ++ [XZip64 {| zf_uncompressed := None; zf_compressed := None; zf_offset := Some (w_offset w); zf_disk := None |}]) = 65542).
    rewrite fields_count_app. change (fields_count_bytes [XUnknown 0xCAFE (N.of_nat m) (repeat x00 m)]) with (fields_count_bytes (en_extra (wide m))). rewrite CB. reflexivity. }
  rewrite C2. change (65542 <? 65536) with false. cbn match.
  assert (SW : w_sched (wh_world (wide m) [] w) = []) by (unfold wh_world; now destruct (_ || _)).
  assert (OW : w_offset (wh_world (wide m) [] w) = w_offset w) by (unfold wh_world; now destruct (_ || _)).
  unfold bind. rewrite puts_calm by exact SW.
  unfold head_writes. cbn [app]. split; [reflexivity|]. cbn [fail snd wrote w_offset]. 
  match goal with |- w_offset (wrote ?v ?b) = _ => change (w_offset v + len b = w_offset w + 65561) end.
  rewrite OW. f_equal. cbn [concat]. rewrite !len_app.
  match goal with |- context [len (lfh_as_slice ?h)] => change (len (lfh_as_slice h)) with 26 end.
  change (len (to_le 4 LFH_SIGNATURE)) with 4. change (len (basic_bytes (en_filename (wide m)))) with 1. change (len (@nil byte)) with 0.
  assert (FB : len (fields_bytes (en_extra (wide m))) = 65530).
  { destruct (fields_bytes_image (en_extra (wide m))) as [-> L].
    - constructor; [|constructor]. cbn. unfold len. rewrite ?repeat_length, ?E. repeat split; first [reflexivity|discriminate].
    - repeat constructor.
    - rewrite CB. reflexivity.
    - rewrite L. exact CB. }
  rewrite FB. reflexivity.
Qed.
(** An extra-field block of 65530 bytes, refused after the entry has been written. *)
Lemma refused_late n m : N.of_nat n = 0xFFFFFFFF -> N.of_nat m = 65526 ->
  let w := snd (run_op toy (long_op n) (zw_new [])) in
  fst (run_op toy (long_op n) (zw_new [])) = Ok tt /\
  let '(r, w') := run_op toy (OpWholePre (wide m) []) w in r = Err ExtraFieldTooLarge /\ len (w_bytes w') = len (w_bytes w) + 65561.
Proof.
  intros E M. destruct (long_runs n E) as (w & R & S & O & F & _). pose proof (grows_run_op toy (long_op n) (zw_new [])) as EV.
  rewrite R in EV |- *. cbn [fst snd] in *. cbv zeta. split; [reflexivity|].
  pose proof (evol_offset _ _ EV eq_refl) as OF. pose proof (grows_run_op toy (OpWholePre (wide m) []) w) as EV2.
  pose proof (late_refusal m w M S O F) as H. destruct (run_op toy (OpWholePre (wide m) []) w) as [r w']. cbn [snd] in EV2.
  pose proof (evol_offset _ _ EV2 OF) as OF2. destruct H as [-> H]. split; [reflexivity|congruence].
Qed.

(** A size of exactly 0xFFFFFFFF behind four gigabytes: the offset is read as the size, the placeholder as the offset. *)
Definition edge : zentry := set_uncompressed_size (tiny []) 0xFFFFFFFF.
Lemma edge_good : op_good (OpWholePre edge []).
Proof. split; [|exact I]. unfold op_fine, entry_fine, entry_wt. cbn. ands; try lia. constructor. Qed.
Lemma edge_record w : w_sched w = [] -> w_offset w = 4294967326 -> w_force_no w = false -> 
  exists c w', run_op toy (OpWholePre edge []) w = (Ok tt, w') /\ w_cds w' = w_cds w ++ [c] /\
    exists st s', cd_record cfg0 (src (ce_bytes c) 0) = (Ok st, s') /\ en_uncompressed_size (st_entry st) = 4294967326 /\ st_file_offset st = 0xFFFFFFFF.
Proof.
  intros S O F. cbn [run_op]. unfold write_entry_whole_precompressed. rewrite whole_body_eq. cbv zeta. rewrite F, andb_false_r, O.
  assert (R : wh_refused edge [] 4294967326 = None) by reflexivity. rewrite R.
  assert (SW : w_sched (wh_world edge [] w) = []) by (unfold wh_world; now destruct (_ || _)).
  unfold bind. rewrite puts_calm by exact SW. unfold head_writes. cbn [app]. cbv beta iota.
  replace (fields_count_bytes (en_extra (wh_e4 edge [] 4294967326)) <? 65536) with true by reflexivity. rewrite push_and_check_eq. cbv zeta.
  exists (wh_cd edge [] 4294967326).
  assert (V : exists st s', cd_record cfg0 (src (ce_bytes (wh_cd edge [] 4294967326)) 0) = (Ok st, s') /\ en_uncompressed_size (st_entry st) = 4294967326 /\ st_file_offset st = 0xFFFFFFFF).
  { eexists _, _. split; [vm_compute; reflexivity|]. split; reflexivity. }
  match goal with |- context [push_cd ?a ?b] => set (w1 := push_cd a b) end.
  assert (C : w_cds w1 = w_cds w ++ [wh_cd edge [] 4294967326]) by (unfold w1, wh_world; now destruct (_ || _)).
  destruct (_ <? _); eexists; (split; [reflexivity|]); (split; [exact C|exact V]).
Qed.
Lemma edge_misread n : N.of_nat n = 0xFFFFFFFF ->
  let w := snd (run_op toy (long_op n) (zw_new [])) in
  fst (run_op toy (long_op n) (zw_new [])) = Ok tt /\ w_offset w = 4294967326 /\
  exists c w', run_op toy (OpWholePre edge []) w = (Ok tt, w') /\ w_cds w' = w_cds w ++ [c] /\
    exists st s', cd_record cfg0 (src (ce_bytes c) 0) = (Ok st, s') /\ en_uncompressed_size (st_entry st) = 4294967326 /\ st_file_offset st = 0xFFFFFFFF.
Proof.
  intro E. destruct (long_runs n E) as (w & R & S & O & F & _). rewrite R. cbn [fst snd]. cbv zeta. split; [reflexivity|]. split; [exact O|].
  now apply edge_record.
Qed.

(** ** With numbers put in *)
Lemma edge_lost : exists o1 o2, op_good o1 /\ op_good o2 /\
  let w := snd (run_op toy o1 (zw_new [])) in
  fst (run_op toy o1 (zw_new [])) = Ok tt /\ w_offset w = 4294967326 /\ o2 = OpWholePre edge [] /\ en_uncompressed_size edge = 0xFFFFFFFF /\
  exists c w', run_op toy o2 w = (Ok tt, w') /\ w_cds w' = w_cds w ++ [c] /\
    exists st s', cd_record cfg0 (src (ce_bytes c) 0) = (Ok st, s') /\ en_uncompressed_size (st_entry st) = 4294967326 /\ st_file_offset st = 0xFFFFFFFF.
Proof.
  destruct (nat_of 0xFFFFFFFF) as (n & E). exists (long_op n), (OpWholePre edge []). split; [now apply long_good|]. split; [exact edge_good|].
  destruct (edge_misread n E) as (A & B & C). split; [exact A|]. split; [exact B|]. split; [reflexivity|]. split; [reflexivity|]. exact C.
Qed.
Lemma wide_late : exists o1 e, len (spec_extras (en_extra e)) = 65530 /\ len (stored_bytes (en_filename e)) = 1 /\ len (stored_bytes (en_comment e)) = 0 /\
  let w := snd (run_op toy o1 (zw_new [])) in
  fst (run_op toy o1 (zw_new [])) = Ok tt /\
  let '(r, w') := run_op toy (OpWholePre e []) w in r = Err ExtraFieldTooLarge /\ len (w_bytes w') = len (w_bytes w) + 65561.
Proof.
  destruct (nat_of 0xFFFFFFFF) as (n & E). destruct (nat_of 65526) as (m & M). exists (long_op n), (wide m). split; [now apply wide_len|].
  split; [reflexivity|]. split; [reflexivity|]. exact (refused_late n m E M).
Qed.
Lemma crowd_listed : exists l, Forall op_good l /\
  let '(xs, r, w) := run_archive toy [] l in
  r = Ok tt /\ (exists ys o, xs = ys ++ [(o, Err (Zip64Needed TooManyFiles))]) /\
  exists f, mem_new cfg0 (w_bytes w) = Ok {| m_data := w_bytes w; m_file := f |} /\
    len (succeeded false xs) = 65535 /\ len (f_entries f) = 65536.
Proof.
  destruct (nat_of 65535) as (n & E). exists (crowd n). split; [apply crowd_good|]. pose proof (crowded n E) as H.
  destruct (run_archive toy [] (crowd n)) as [[xs r] w]. destruct H as (A & (ys & B) & C). eauto.
Qed.
Lemma fat_forbidden : exists l, Forall op_good l /\ ~ In OpForceZip64 l /\
  let '(xs, r, w) := run_archive toy [] (OpForceNoZip64 :: l) in
  r = Ok tt /\ Forall (fun x => worked (snd x) = true) xs /\ w_zip64 w = false /\
  exists body ms, w_bytes w = body ++ members ms ++ end_record 0 0 65535 65535 0xFFFFFFFF (len body) 0 /\ 0xFFFFFFFF < len (members ms).
Proof.
  destruct (nat_of 65535) as (n & E). exists (fat false n n). split; [apply fat_good|]. split; [|exact (fat_archive true n n E E)].
  intro I. apply repeat_spec in I. discriminate.
Qed.
Lemma fat_allowed : exists l, Forall op_good l /\ ~ In OpForceNoZip64 l /\
  let '(xs, r, w) := run_archive toy [] l in
  r = Ok tt /\ Forall (fun x => worked (snd x) = true) xs /\ w_zip64 w = false /\
  exists body ms, w_bytes w = body ++ members ms ++ end_record 0 0 65535 65535 0xFFFFFFFF (len body) 0 /\ 0xFFFFFFFF < len (members ms).
Proof.
  destruct (nat_of 65535) as (n & E). exists (fat false n n). split; [apply fat_good|]. split; [|exact (fat_archive false n n E E)].
  intro I. apply repeat_spec in I. discriminate.
Qed.

(** ** A comment too long for its length field *)
Lemma long_comment_lost : exists c, ascii c /\
  let '(xs, r, w) := run_archive toy [] [OpComment c] in r = Ok tt /\ mem_new cfg0 (w_bytes w) = Err UnableToLocateEOCDR.
Proof.
  destruct (nat_of 70000) as (k & K). set (c := repeat x61 k). assert (LC : len c = 70000) by (unfold c, len; now rewrite repeat_length).
  assert (SP : forall x, In x c -> x = x61) by (intros x I; exact (repeat_spec _ _ _ I)).
  exists c. split; [apply Forall_forall; intros x I; rewrite (SP x I); reflexivity|]. clearbody c.
  unfold run_archive. cbn [run_ops run_op]. unfold modify. cbv beta iota.
  match goal with |- context [zw_close ?x] => set (w0 := x) end. assert (CS : cds_short w0) by constructor.
  assert (CL : fst (zw_close w0) = Ok tt) by (apply close_calm; [exact CS|reflexivity|reflexivity]).
  destruct (zw_close w0) as [r w] eqn:E. cbn [fst] in CL. subst r. split; [reflexivity|].
  pose proof (close_ok w0 w tt CS E) as (B & _). 
  assert (D : w_bytes w = end_record 0 0 0 0 0 0 4464 ++ c).
  { rewrite B. replace (comment_bytes (w_comment w0)) with c by reflexivity. unfold archive_end. rewrite LC. reflexivity. }
  unfold mem_new, file, bind.
  assert (L : fst (eocdr_locate (cursor (w_bytes w))) = Err UnableToLocateEOCDR).
  { apply located; [constructor|]. cbn [s_data cursor]. rewrite D. intros p (a & b & F & LA). rewrite len_app, LC. change (len (end_record 0 0 0 0 0 0 4464)) with 22.
    assert (NT : nth_error (end_record 0 0 0 0 0 0 4464 ++ c) (N.to_nat p) = Some x50).
    { rewrite F, nth_error_app2 by (unfold len in LA; lia). replace (N.to_nat p - length a)%nat with O by (unfold len in LA; lia). reflexivity. }
    destruct (N.le_gt_cases 22 p) as [G|G].
    - rewrite nth_error_app2 in NT by (cbn; lia). apply nth_error_In in NT. apply SP in NT. discriminate.
    - assert (p = 0 \/ (1 <= N.to_nat p <= 21)%nat) as [->|P] by lia; [reflexivity|exfalso].
      rewrite nth_error_app1 in NT by (change (length (end_record 0 0 0 0 0 0 4464)) with 22%nat; lia).
      destruct (N.to_nat p) as [|i]; [lia|]. do 21 (destruct i as [|i]; [vm_compute in NT; discriminate|]). lia. }
  destruct (eocdr_locate _) as [r s]. cbn [fst] in L. subst r. reflexivity.
Qed.
