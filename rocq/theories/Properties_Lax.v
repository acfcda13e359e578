(** Property theorems: what exactly a strict check finds wrong with archives. *)
From Verif Require Import Base SpecFormat SpecCrc SpecUtf8 SpecArchive SpecRead SpecWrite SpecStrict SpecLax SpecInterop ZString ZDate Headers ExtraField Entry
  IO Reader EntryReader Writer Samples WriteSamples StrictProofs EndProofs LaxProofs Properties_Strict.

(** * C93. Overlooking nothing, the check is the strict one ... *)
Theorem C93_strict cd d : lax false false cd d = strict cd d.
Proof. exact (lax_strict cd d). Qed.
Print Assumptions C93_strict.
(** ... overlooking either thing, both or none, it passes an archive of at most 4 GiB exactly if every call is one that passes ... *)
Theorem C93_exact ver dsc cd sched l : codec_ok cd -> Forall op_good l -> Forall (fun o => dropped o = false) l ->
  let '(xs, r, w) := run_archive cd sched l in
  r = Ok tt -> Forall (fun x => worked (snd x) = true) xs -> len (w_bytes w) <= 0xFFFFFFFF ->
  others_clear (w_zip64 w) (last_comment l) (w_bytes w) -> Forall (unexchanged cd) (succeeded false xs) ->
  (lax ver dsc cd (w_bytes w) = true <-> Forall (passes ver dsc cd) (succeeded false xs)).
Proof. exact (lax_small ver dsc cd sched l). Qed.
Print Assumptions C93_exact.
(** ... and so for an archive of any size if the version is overlooked, unless a size or an offset is the placeholder itself. *)
Theorem C93_any dsc cd sched l : codec_ok cd -> Forall op_good l -> Forall (fun o => dropped o = false) l ->
  let '(xs, r, w) := run_archive cd sched l in
  r = Ok tt -> Forall (fun x => worked (snd x) = true) xs -> len (w_bytes w) < 0x10000000000000000 -> (w_zip64 w = true \/ len (w_bytes w) <= 0xFFFFFFFF) ->
  others_clear (w_zip64 w) (last_comment l) (w_bytes w) -> Forall (unexchanged cd) (succeeded false xs) ->
  (len (w_bytes w) <= 0xFFFFFFFF \/ Forall (no_placeholder cd) (succeeded false xs) /\ ~ found_at (le 4 0x04034b50) (w_bytes w) 0xFFFFFFFF) ->
  (lax true dsc cd (w_bytes w) = true <-> Forall (passes true dsc cd) (succeeded false xs)).
Proof. exact (lax_any dsc cd sched l). Qed.
Print Assumptions C93_any.
(** * C62, exactly, for all archives of at most 4 GiB *)
Theorem C62_small_partial cd sched l : codec_ok cd -> Forall op_good l -> Forall (fun o => dropped o = false) l ->
  let '(xs, r, w) := run_archive cd sched l in
  r = Ok tt -> Forall (fun x => worked (snd x) = true) xs -> len (w_bytes w) <= 0xFFFFFFFF ->
  others_clear (w_zip64 w) (last_comment l) (w_bytes w) -> Forall (unexchanged cd) (succeeded false xs) ->
  (strict cd (w_bytes w) = true <-> Forall (passes false false cd) (succeeded false xs)).
Proof. exact (strict_small cd sched l). Qed.
Print Assumptions C62_small_partial.

(** A stream, a directory, data compressed beforehand. Overlooking both things there is nothing wrong; overlooking one there is. *)
Definition flowing : list wop :=
  [OpStream false entry1 [SWriteAll [x68]; SFlush; SWriteAll [x69; x6a]] true; OpWhole folder []; OpComment [x68; x65; x79];
   OpStream true (packed [x55] 3) [SWriteAll [x01; x55; x00]] true].
Lemma unexchanged_free cd o : unexchanged cd (false, o).
Proof. intros it LV. unfold straight, i_swapped. inversion LV; subst; cbn; discriminate. Qed.
Example C93_case : codec_ok toy /\ Forall op_good flowing /\ Forall (fun o => dropped o = false) flowing /\
  let '(xs, r, w) := run_archive toy bumpy flowing in
  r = Ok tt /\ Forall (fun x => worked (snd x) = true) xs /\ len (w_bytes w) <= 0xFFFFFFFF /\ w_zip64 w = true /\
  others_clear (w_zip64 w) (last_comment flowing) (w_bytes w) /\ Forall (unexchanged toy) (succeeded false xs) /\ len (succeeded false xs) = 3 /\
  Forall (passes true true toy) (succeeded false xs) /\
  lax true true toy (w_bytes w) = true /\ lax true false toy (w_bytes w) = false /\ lax false true toy (w_bytes w) = false /\ strict toy (w_bytes w) = false.
Proof.
  split; [exact toy_ok|]. split; [repeat constructor; cbn; discriminate|]. split; [repeat constructor|].
  pose proof (C93_exact true true toy bumpy flowing toy_ok ltac:(repeat constructor; cbn; discriminate) ltac:(repeat constructor)) as X.
  assert (H : let '(xs, r, w) := run_archive toy bumpy flowing in
    r = Ok tt /\ Forall (fun x => worked (snd x) = true) xs /\ w_zip64 w = true /\ clear_end xs (w_zip64 w) (last_comment flowing) (w_bytes w) = true /\
    (len (w_bytes w) <=? 0xFFFFFFFF) = true /\ map fst (succeeded false xs) = [false; false; false] /\
    lax true true toy (w_bytes w) = true /\ lax true false toy (w_bytes w) = false /\ lax false true toy (w_bytes w) = false /\ strict toy (w_bytes w) = false).
  { vm_compute. split; [reflexivity|]. split; [repeat constructor|]. repeat split; reflexivity. }
  destruct (run_archive toy bumpy flowing) as [[xs r] w]. destruct H as (H1 & H2 & H3 & H4 & H5 & H6 & H7 & H8 & H9 & H10). apply N.leb_le in H5.
  pose proof (clear_end_ok toy flowing _ _ _ H4) as (_ & _ & _ & E & _).
  apply end_clear_others in E.
  assert (UX : Forall (unexchanged toy) (succeeded false xs)).
  { apply Forall_forall. intros [n o] I. apply (in_map fst) in I. rewrite H6 in I. cbn in I. destruct I as [<-|[<-|[<-|[]]]]; apply unexchanged_free. }
  assert (L3 : len (succeeded false xs) = 3).
  { apply (f_equal (@length bool)) in H6. rewrite map_length in H6. unfold len. now rewrite H6. }
  repeat match goal with |- _ /\ _ => split end; try assumption. now apply (X H1 H2 H5 E UX).
Qed.
(** It still looks at everything else: a wrong check value is found. *)
Example C93_wrong : let '(_, r, w) := run_archive toy [] [OpWholePre (packed [x56] 3) [x01; x55; x00]] in r = Ok tt /\ lax true true toy (w_bytes w) = false.
Proof. vm_compute. split; reflexivity. Qed.
(** A method that needs version 4.5 or more has its ZIP64 field announced by accident; the descriptor is still wrong. *)
Definition bz_entry : zentry := mk_entry (utf8 [x62]) (utf8 []) Bz [].
Example C93_accident : let '(_, r, w) := run_archive toy [] [OpStream false bz_entry [SWriteAll [x68]] true] in
  r = Ok tt /\ lax false true toy (w_bytes w) = true /\ strict toy (w_bytes w) = false.
Proof. vm_compute. repeat split; reflexivity. Qed.
