(** Property C89. *)
From Verif Require Import Base BaseFacts SpecFormat SpecCrc SpecArchive SpecRead ZString ZDate Headers ExtraField Entry IO IOFacts Reader EntryReader Writer SpecWrite Samples WriteSamples
  SpecApart ApartProofs Properties_Archive.

(** * C89. Entries share no bytes. *)
(** Full statement: in an archive that opens, the entries lie one behind the other in front of the directory, so that their
    data together is no longer than the archive. It is proved for archives this crate wrote, unless sizes were exchanged. *)
Theorem C89_apart_partial cd cfg sched s l : codec_ok cd -> Forall op_good l ->
  let '(xs, r, w) := run_archive cd sched l in
  let d := w_bytes w in
  r = Ok tt -> unambiguous cd cfg l xs (w_zip64 w) d -> s_data s = d -> nofail (s_sched s) ->
  Forall (fun x => forall it, leaves cd (fst x) (snd x) it -> straight it) (succeeded false xs) ->
  exists f, fst (file cfg s) = Ok f /\ one_behind_other d 0 (f_entries f) (len (w_bytes (snd (run_ops cd l (zw_new sched))))).
Proof. exact (written_apart cd cfg sched s l). Qed.
Print Assumptions C89_apart_partial.
(** Entries that lie apart are together no longer than the file. *)
Theorem C89_room d es lo hi : one_behind_other d lo es hi -> lo + 30 * len es + claimed es <= hi.
Proof. exact (apart_claimed d es lo hi). Qed.
Print Assumptions C89_room.

(** Other archives: the reader lets any number of entries have the same data. With [n] records of 47 bytes for one file,
    [n] times its length can be read. *)
Theorem C89_refuted_shared cd cfg n data s : (0 < n)%nat -> N.of_nat n < 0x4b50 -> len data < 0x4000000 -> s_data s = bomb n data -> nofail (s_sched s) ->
  N.of_nat n * entry_mem_size cfg <= isize_max ->
  len (bomb n data) = 53 + len data + 47 * N.of_nat n /\
  exists f, fst (file cfg s) = Ok f /\ len (f_entries f) = N.of_nat n /\ claimed (f_entries f) = N.of_nat n * len data /\
    Forall (fun e => st_file_offset e = 0 /\ reach (bomb n data) e = 31 + len data) (f_entries f) /\
    forall i, i < N.of_nat n -> read_entry cd f i s = Ok data.
Proof. intros A B C D E F. exact (conj (bomb_size n data) (bomb_opens cd cfg n data s A B C D E F)). Qed.
Print Assumptions C89_refuted_shared.
Theorem C89_refuted : exists d f, mem_new cfg0 d = Ok {| m_data := d; m_file := f |} /\ len d < claimed (f_entries f) /\
  forall lo hi, ~ one_behind_other d lo (f_entries f) hi.
Proof.
  exists (bomb 3 (repeat x61 100)).
  assert (H : match mem_new cfg0 (bomb 3 (repeat x61 100)) with
    | Ok m => m_data m = bomb 3 (repeat x61 100) /\ claimed (f_entries (m_file m)) = 300 /\ map st_file_offset (f_entries (m_file m)) = [0; 0; 0] | _ => False end)
    by (vm_compute; repeat split).
  destruct (mem_new cfg0 (bomb 3 (repeat x61 100))) as [[d f]|x|p]; [|destruct H|destruct H]. cbn [m_data m_file] in H. destruct H as (-> & C & O).
  exists f. split; [reflexivity|]. split; [rewrite C; vm_compute; reflexivity|]. intros lo hi.
  destruct (f_entries f) as [|a [|b es]]; try discriminate O. cbn in O. injection O as Oa Ob _. cbn [one_behind_other]. unfold reach, data_start.
  rewrite Oa, Ob. intros (_ & L & _). lia.
Qed.
Print Assumptions C89_refuted.
(** Nor is it true of all archives this crate wrote: with ZIP64 forbidden a stream's sizes are exchanged, and it reaches into the next. *)
Definition stretched : list wop :=
  [OpForceNoZip64; OpStream true (set_uncompressed_size entry2 500) [SWriteAll [x01; x02]] true; OpWhole entry1 [x68]].
Theorem C89_refuted_exchanged : Forall op_good stretched /\
  let '(xs, r, w) := run_archive toy [] stretched in
  r = Ok tt /\ Forall (fun x => worked (snd x) = true) xs /\
  exists f a b, mem_new cfg0 (w_bytes w) = Ok {| m_data := w_bytes w; m_file := f |} /\ f_entries f = [a; b] /\
    st_file_offset b < reach (w_bytes w) a /\ len (w_bytes w) < reach (w_bytes w) a.
Proof.
  split; [repeat constructor; cbn; discriminate|].
  assert (H : let '(xs, r, w) := run_archive toy [] stretched in r = Ok tt /\ Forall (fun x => worked (snd x) = true) xs /\
    opened (w_bytes w) (fun f => match f_entries f with [a; b] => (st_file_offset b <? reach (w_bytes w) a) && (len (w_bytes w) <? reach (w_bytes w) a) | _ => false end) = Some true).
  { vm_compute. repeat split; repeat constructor. }
  destruct (run_archive toy [] stretched) as [[xs r] w]. destruct H as (H1 & H2 & H3). apply opened_ok in H3 as (f & F & H3).
  destruct (f_entries f) as [|a [|b [|]]] eqn:E; try discriminate H3. apply andb_true_iff in H3 as [X Y].
  split; [exact H1|]. split; [exact H2|]. exists f, a, b. split; [exact F|]. split; [exact E|]. split; lia.
Qed.
Print Assumptions C89_refuted_exchanged.

(** the sample history meets the conditions; its three entries lie apart *)
Lemma allowed_straight cd xs : map fst xs = repeat false (length xs) -> Forall (fun x => forall it, leaves cd (fst x) (snd x) it -> straight it) xs.
Proof.
  induction xs as [|[n o] xs IH]; intro E; constructor; cbn in E; injection E as -> E; auto.
  intros it L. unfold straight, i_swapped. inversion L; cbn; discriminate.
Qed.
Example C89_case : codec_ok toy /\ Forall op_good history /\
  let '(xs, r, w) := run_archive toy bumpy history in
  r = Ok tt /\ unambiguous toy cfg0 history xs (w_zip64 w) (w_bytes w) /\
  Forall (fun x => forall it, leaves toy (fst x) (snd x) it -> straight it) (succeeded false xs) /\
  exists f, mem_new cfg0 (w_bytes w) = Ok {| m_data := w_bytes w; m_file := f |} /\
    map (fun e => (st_file_offset e, reach (w_bytes w) e)) (f_entries f) = [(0, 40); (40, 115); (197, 242)].
Proof.
  split; [exact toy_ok|]. split; [exact history_good|]. pose proof history_clear as H.
  assert (Q : let '(xs, r, w) := run_archive toy bumpy history in r = Ok tt /\ map fst (succeeded false xs) = repeat false (length (succeeded false xs)) /\
    opened (w_bytes w) (fun f => map (fun e => (st_file_offset e, reach (w_bytes w) e)) (f_entries f)) = Some [(0, 40); (40, 115); (197, 242)]).
  { vm_compute. repeat split; reflexivity. }
  destruct (run_archive toy bumpy history) as [[xs r] w]. destruct Q as (Q1 & Q2 & Q3). apply opened_ok in Q3 as (f & F & Q3).
  split; [exact Q1|]. split; [exact H|]. split; [now apply allowed_straight|]. exists f. split; [exact F|exact Q3].
Qed.
(** a file of 100 bytes, twenty thousand bytes out of fewer than ten thousand *)
Example C89_shared_case : len (repeat x61 100) = 100 /\ len (bomb 200 (repeat x61 100)) = 9553 /\ N.of_nat 200 * entry_mem_size cfg0 <= isize_max.
Proof. vm_compute. repeat split; discriminate. Qed.
