(** Property theorems: any archive that readers agree on, read and written to another one. *)
From Verif Require Import Base SpecFormat SpecCrc SpecArchive SpecRead SpecWrite SpecSize SpecCopy SpecStrict SpecAccept SpecLax SpecRepack SpecInterop SpecAgree ZString ZDate Headers ExtraField Entry
  IO Reader EntryReader Writer Samples WriteSamples EndProofs RepackAny Properties_Further Properties_Repack.

(** * C92 for archives that do not pass the strict check: other readers see the same entries in the copy. *)
(** It is enough that they and this crate agree on the end record and on the number of entries (C95), and that the sizes told are right. The
    copy may be of any size. *)
Theorem C92_seen_partial cd cfg sched d es vs : codec_ok cd -> taken cd cfg d es -> sights cd d = Some vs -> same_end d -> counted d (len vs) -> len d < 0x10000000000000000 ->
  Forall (fun v => v_usize v = len (v_content v)) vs -> Forall (fun x => unwide (fst x) /\ len (snd x) < 0x10000000000000000) es ->
  let '(xs, r, w) := run_archive cd sched (copy_ops es) in
  let d' := w_bytes w in
  r = Ok tt -> Forall (fun x => worked (snd x) = true) xs -> len d' < 0x10000000000000000 -> sizes_tell cd d' (succeeded false xs) ->
  (w_zip64 w = false -> ~ complete_end64 d' 22) -> (w_zip64 w = true \/ len d' <= 0xFFFFFFFF) -> (len d' <= 0xFFFFFFFF \/ ~ found_at (le 4 0x04034b50) d' 0xFFFFFFFF) ->
  exists vs', sights cd d' = Some vs' /\ Forall2 same_sight vs vs'.
Proof. exact (repacked_any cd cfg sched d es vs). Qed.
Print Assumptions C92_seen_partial.

(** The archive of [C92_case] as left behind by a program that removes entries without closing the gaps, put behind the first line of a script. *)
Definition stub : bytes := [x23; x21; x0a].
Definition gap : bytes := [x00; x50; x4b; x00].
Definition ragged_members : list member := map (fun a => {| a_made_by := a_made_by a; a_needed := a_needed a; a_flags := a_flags a; a_method := a_method a; a_time := a_time a;
  a_date := a_date a; a_crc := a_crc a; a_usize := a_usize a; a_csize := a_csize a; a_offset := a_offset a + len stub; a_disk := a_disk a; a_u64 := a_u64 a; a_c64 := a_c64 a;
  a_o64 := a_o64 a; a_d64 := a_d64 a; a_iattr := a_iattr a; a_eattr := a_eattr a; a_name := a_name a; a_comment := a_comment a; a_before := a_before a; a_after := a_after a |})
  (brought [x82; x2f]).
Definition ragged_front : bytes := stub ++ brought_front [x82; x2f] ++ gap.
Definition ragged : bytes :=
  ragged_front ++ members ragged_members ++ end_record 0 0 3 3 (len (members ragged_members)) (len ragged_front) 2 ++ [x68; x69].
Example C92_ragged : exists es vs, strict toy ragged = false /\ taken toy cfg0 ragged es /\ sights toy ragged = Some vs /\ same_end ragged /\ counted ragged (len vs) /\
  len ragged < 0x10000000000000000 /\ Forall (fun v => v_usize v = len (v_content v)) vs /\ Forall (fun x => unwide (fst x) /\ len (snd x) < 0x10000000000000000) es /\
  map snd es = [data1; [x78; x79]; []] /\
  let '(xs, r, w) := run_archive toy bumpy (copy_ops es) in
  let d' := w_bytes w in
  r = Ok tt /\ Forall (fun x => worked (snd x) = true) xs /\ len d' <= 0xFFFFFFFF /\ sizes_tell toy d' (succeeded false xs) /\ (w_zip64 w = false -> ~ complete_end64 d' 22).
Proof.
  assert (C : match pull ragged, sights toy ragged, directory_at ragged, last_end ragged with
    | Some es, Some vs, Some (front, (n, size, off)), Some (front0, ws) =>
      n = 3 /\ len vs = 3 /\ Forall (fun v => v_usize v = len (v_content v)) vs /\ none_after (le 4 0x06054b50) ragged (len front0) = true /\
      none_after (le 4 0x07064b50) ragged 0 = true /\ map snd es = [data1; [x78; x79]; []] /\ forallb (fun x => classic (fst x) && (len (snd x) <=? 0xFFFFFFFF)) es = true /\
      let '(xs, r, w) := run_archive toy bumpy (copy_ops es) in
      r = Ok tt /\ forallb (fun x => worked (snd x)) xs = true /\ (len (w_bytes w) <=? 0xFFFFFFFF) = true /\ clear_end xs (w_zip64 w) [] (w_bytes w) = true
    | _, _, _, _ => False end).
  { vm_compute. repeat split; repeat constructor. }
  destruct (pull ragged) as [es|] eqn:PU; [|exact (False_ind _ C)]. destruct (sights toy ragged) as [vs|] eqn:SI; [|exact (False_ind _ C)].
  destruct (directory_at ragged) as [[front [[n size] off]]|] eqn:DA; [|exact (False_ind _ C)]. destruct (last_end ragged) as [[front0 ws]|] eqn:LE; [|exact (False_ind _ C)].
  destruct C as (-> & C2 & C3 & C4 & C5 & C6 & C7 & C8). apply pull_ok in PU. apply portable_ok in C7. exists es, vs. split; [vm_compute; reflexivity|]. split; [exact PU|].
  split; [reflexivity|]. split.
  { intros fr d1 d2 n1 n2 sz o cl E. rewrite LE in E. injection E as <- _. split; [apply none_after_ok; [reflexivity|exact C4]|]. intros _. left.
    intros q F. pose proof (none_after_ok (le 4 0x07064b50) ragged 0 eq_refl C5 q F). assert (q = 0) as -> by lia. destruct F as (a & b & F & L).
    destruct a; [|discriminate L]. apply (f_equal (hd x00)) in F. vm_compute in F. discriminate F. }
  rewrite C2. split; [now exists front, size, off|]. split; [vm_compute; reflexivity|]. split; [exact C3|].
  split; [eapply Forall_impl; [|exact C7]; intros x [X1 X2]; split; [exact X1|lia]|]. split; [exact C6|].
  destruct (run_archive toy bumpy (copy_ops es)) as [[xs r] w]. destruct C8 as (D1 & D2 & D3 & D4). cbv zeta.
  pose proof (clear_end_ok toy [] _ _ _ D4) as (_ & _ & SZ & E & _). apply end_clear_others in E.
  split; [exact D1|]. split; [apply Forall_forall; now apply forallb_forall|]. split; [now apply N.leb_le|]. split; [exact SZ|]. exact (proj2 (proj2 E)).
Qed.
