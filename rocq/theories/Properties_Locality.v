(** Property theorems: what opening an archive looks at. *)
From Verif Require Import Base BaseFacts SpecFormat SpecArchive SpecRead SpecWrite SpecStrict SpecExact SpecLocality ZString ZDate Headers ExtraField Entry
  IO IOFacts Reader EntryReader Writer Samples WriteSamples Properties_Exact Properties_Archive PadProofs LocalityProofs.

(** * C83. Opening an archive looks at its directory and its end only. *)
Theorem C83_front cfg s f a b t : fst (file cfg (cursor (a ++ t))) = Ok f -> looks_behind (len a) (a ++ t) -> len b = len a ->
  s_data s = b ++ t -> nofail (s_sched s) -> fst (file cfg s) = Ok f.
Proof. exact (front_ignored cfg s f a b t). Qed.
Print Assumptions C83_front.
(** Bytes replaced in place: the listing stays, and so does every entry they are not part of. *)
Theorem C83_patched cd cfg f s a m m' t : fst (file cfg (cursor (a ++ m ++ t))) = Ok f -> looks_behind (len a + len m) (a ++ m ++ t) -> len m' = len m ->
  s_data s = a ++ m' ++ t -> nofail (s_sched s) ->
  fst (file cfg s) = Ok f /\
  forall i e, entry_at f i = Some e -> apart (len a) (len m) (st_file_offset e) 30 ->
    apart (len a) (len m) (data_start (a ++ m ++ t) (st_file_offset e)) (en_compressed_size (st_entry e)) ->
    read_entry cd f i s = read_entry cd f i (cursor (a ++ m ++ t)).
Proof. exact (patched cd cfg f s a m m' t). Qed.
Print Assumptions C83_patched.
(** An archive this crate wrote lists the same whatever replaces the bytes that stand before its directory. *)
Theorem C83_written cd cfg sched s l b : codec_ok cd -> Forall op_good l ->
  let '(xs, r, w) := run_archive cd sched l in
  let d := w_bytes w in let body := w_bytes (snd (run_ops cd l (zw_new sched))) in
  r = Ok tt -> unambiguous cd cfg l xs (w_zip64 w) d -> w_zip64 w = true \/ succeeded false xs <> [] -> len b = len body ->
  s_data s = b ++ drop (len body) d -> nofail (s_sched s) ->
  exists f, fst (file cfg (cursor d)) = Ok f /\ fst (file cfg s) = Ok f /\ f_zip64 f = w_zip64 w /\ comment_reads_as (last_comment l) (f_comment f) /\
    Forall2 (fun x st => exists it, leaves cd (fst x) (snd x) it /\ as_written d it st /\ texts_kept it st) (succeeded false xs) (f_entries f).
Proof. exact (written_front cd cfg sched s l b). Qed.
Print Assumptions C83_written.

(** The entries of the sample of 64 bit ends at 88; the data of its second entry is changed. *)
Lemma sample_behind : looks_behind 88 sample64.
Proof.
  intros x rs S. destruct (C65_single _ _ _ _ _ S (proj1 C65_case)) as [-> ->]. vm_compute.
  repeat split; intros; discriminate.
Qed.
(** The first entry is blanked: it is still listed, it is not read any more, and the second one reads as before. *)
Example C83_case : looks_behind 88 sample64 /\ sample64 = [] ++ take 34 sample64 ++ drop 34 sample64 /\
  exists f e, fst (file cfg0 (cursor sample64)) = Ok f /\ fst (file cfg0 (cursor (repeat x00 34 ++ drop 34 sample64))) = Ok f /\ len (f_entries f) = 2 /\
    entry_at f 1 = Some e /\ apart 0 34 (st_file_offset e) 30 /\ apart 0 34 (data_start sample64 (st_file_offset e)) (en_compressed_size (st_entry e)) /\
    read_entry toy f 1 (cursor (repeat x00 34 ++ drop 34 sample64)) = Ok [x78; x79] /\
    read_entry toy f 0 (cursor (repeat x00 34 ++ drop 34 sample64)) <> read_entry toy f 0 (cursor sample64).
Proof.
  split; [exact sample_behind|]. split; [vm_compute; reflexivity|]. do 2 eexists. split; [vm_compute; reflexivity|]. split; [vm_compute; reflexivity|].
  split; [reflexivity|]. split; [reflexivity|]. split; [right; vm_compute; discriminate|]. split; [right; vm_compute; discriminate|]. split; [vm_compute; reflexivity|vm_compute; discriminate].
Qed.
Example C83_case_written : codec_ok toy /\ Forall op_good history /\ let '(xs, r, w) := run_archive toy bumpy history in
  r = Ok tt /\ unambiguous toy cfg0 history xs (w_zip64 w) (w_bytes w) /\ succeeded false xs <> [] /\
  (20 <=? len (w_bytes (snd (run_ops toy history (zw_new bumpy))))) = true.
Proof.
  split; [exact toy_ok|]. split; [exact history_good|]. pose proof history_clear as U.
  assert (H : let '(xs, r, w) := run_archive toy bumpy history in r = Ok tt /\ (0 <? len (succeeded false xs)) = true) by (vm_compute; split; reflexivity).
  destruct (run_archive toy bumpy history) as [[xs r] w]. destruct H as [H1 H2]. split; [exact H1|]. split; [exact U|]. split; [intros E; rewrite E in H2; discriminate H2|].
  vm_compute. reflexivity.
Qed.
(** Without it: in front of the end record of an empty directory anything may stand, but a locator is taken for one. *)
Definition bare_end : bytes := end_record 0 0 0 0 0 0 0.
Example C83_empty : ~ looks_behind 20 (repeat x00 20 ++ bare_end) /\ len (zip64_end_locator 0 0 1) = len (repeat x00 20) /\
  (exists f, fst (file cfg0 (cursor (repeat x00 20 ++ bare_end))) = Ok f /\ f_entries f = []) /\
  exists e, fst (file cfg0 (cursor (zip64_end_locator 0 0 1 ++ bare_end))) = Err e.
Proof.
  assert (F : exists f, fst (file cfg0 (cursor (repeat x00 20 ++ bare_end))) = Ok f /\ f_entries f = []) by (eexists; split; [vm_compute; reflexivity|reflexivity]).
  split; [|split; [reflexivity|split; [exact F|eexists; vm_compute; reflexivity]]].
  intro LB. destruct F as (f & F & _). pose proof (C83_front cfg0 (cursor (zip64_end_locator 0 0 1 ++ bare_end)) f (repeat x00 20) (zip64_end_locator 0 0 1) bare_end F LB eq_refl eq_refl
    ltac:(constructor)) as X.
  assert (E : exists e, fst (file cfg0 (cursor (zip64_end_locator 0 0 1 ++ bare_end))) = Err e) by (eexists; vm_compute; reflexivity).
  destruct E as (e & E). rewrite E in X. discriminate X.
Qed.
