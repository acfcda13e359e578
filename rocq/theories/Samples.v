(** Concrete data for the examples: a toy compression scheme and a small archive. *)
From Verif Require Import Base SpecFormat SpecCrc SpecArchive SpecRead ZString ZDate Headers ExtraField Entry IO Reader EntryReader.

(** each byte [b] becomes [01 b]; [00] ends the stream; the encoder takes at most three bytes at a time *)
Fixpoint toy_dec (l : bytes) : bytes * option N :=
  match l with
  | x00 :: _ => ([], Some 1)
  | x01 :: b :: r => let '(out, fin) := toy_dec r in (b :: out, match fin with Some k => Some (k + 2) | None => None end)
  | _ => ([], None)
  end.
Definition toy : codec :=
  {| est := unit; enc_init _ _ := tt;
     enc_write _ b := (N.min 3 (len b), flat_map (fun x => [x01; x]) (take 3 b), tt);
     enc_flush _ := ([], tt); enc_finish _ := [x00]; dec _ w := toy_dec w |}.
Lemma toy_within : dec_within toy.
Proof.
  intros c w out k H. cbn [toy dec] in H. revert out k H.
  assert (G : forall n l, (length l <= n)%nat -> forall out k, toy_dec l = (out, Some k) -> k <= len l).
  { induction n as [|n IH]; intros l Hl out k H; [destruct l; [discriminate|cbn in Hl; lia]|].
    destruct l as [|x l]; [discriminate|]. cbn [toy_dec] in H. unfold len in *. cbn [length] in *.
    destruct x; try discriminate; [injection H as _ <-; lia|].
    destruct l as [|b l]; [discriminate|]. destruct (toy_dec l) as [o [j|]] eqn:E; [|discriminate].
    injection H as _ <-. cbn [length] in *. specialize (IH l ltac:(lia) o j E). lia. }
  intros out k H. exact (G (length w) w (le_n _) out k H).
Qed.

Definition cfg0 : config := {| overflow_checks := true; entry_mem_size := 200 |}.
Definition release : config := {| overflow_checks := false; entry_mem_size := 200 |}.

(** "hi!" stored as "a", "xy" under the toy scheme as "b/c" (with a data descriptor and a ZIP64 field) *)
Definition data1 : bytes := [x68; x69; x21].
Definition data2 : bytes := [x01; x78; x01; x79; x00].
Definition member1 : member :=
  {| a_made_by := 0x031E; a_needed := 10; a_flags := 0x0800; a_method := Stored; a_time := 0; a_date := 33;
     a_crc := crc32_spec data1; a_usize := 3; a_csize := 3; a_offset := 0; a_disk := 0;
     a_u64 := false; a_c64 := false; a_o64 := false; a_d64 := false; a_iattr := 0; a_eattr := 0x81A40000;
     a_name := [x61]; a_comment := [x6b]; a_before := []; a_after := [XUnknown 0xCAFE 2 [x01; x02]] |}.
Definition local1 : bytes := local_header 10 0x0800 0 0 33 (crc32_spec data1) 3 3 1 0 ++ [x61].
Definition member2 : member :=
  {| a_made_by := 0x031E; a_needed := 20; a_flags := 0x0008; a_method := Deflate; a_time := 7; a_date := 33;
     a_crc := crc32_spec [x78; x79]; a_usize := 2; a_csize := 5; a_offset := 34; a_disk := 0;
     a_u64 := true; a_c64 := true; a_o64 := true; a_d64 := false; a_iattr := 0; a_eattr := 0;
     a_name := [x62; x2f; x63]; a_comment := []; a_before := []; a_after := [XUnknown 0x1234 0 []] |}.
Definition local2 : bytes := local_header 20 0x0008 8 7 33 0 0 0 3 0 ++ [x62; x2f; x63].
Definition body : bytes :=
  local1 ++ data1 ++ local2 ++ data2 ++ data_descriptor32 (crc32_spec [x78; x79]) 5 2.
Definition comment0 : bytes := [x68; x65; x79].
Definition sample : bytes :=
  body ++ members [member1; member2] ++ [] ++
  end_record 0 0 2 2 (len (members [member1; member2])) (len body) 3 ++ comment0 ++ [].
Definition sample64 : bytes :=
  body ++ members [member1; member2] ++ [] ++
  zip64_end 44 798 46 0 0 2 2 (len (members [member1; member2])) (len body) ++ [] ++
  zip64_end_locator 0 (len (body ++ members [member1; member2] ++ [])) 1 ++
  end_record 0 0 0xFFFF 0xFFFF 0xFFFFFFFF 0xFFFFFFFF 3 ++ comment0 ++ [].

(** checking "no occurrence of the signature after offset [n]" by computation *)
Definition none_after (sig d : bytes) (n : N) : bool :=
  forallb (fun i => negb (bytes_eqb (firstn (length sig) (skipn i d)) sig)) (seq (S (N.to_nat n)) (length d)).
Lemma none_after_ok sig d n : 0 < len sig -> none_after sig d n = true -> forall q, found_at sig d q -> q <= n.
Proof.
  intros Hs H q (a & b & E & L). destruct (N.le_gt_cases q n) as [|G]; [easy|exfalso].
  unfold none_after in H. rewrite forallb_forall in H. specialize (H (N.to_nat q)).
  assert (Hlen : (N.to_nat q = length a)%nat) by (unfold len in L; lia).
  assert (Hd : (length a <= length d)%nat) by (rewrite E, app_length; lia).
  rewrite in_seq in H. specialize (H ltac:(unfold len in *; lia)).
  assert (Es : firstn (length sig) (skipn (N.to_nat q) d) = sig).
  { rewrite Hlen, E, skipn_app, skipn_all, Nat.sub_diag. cbn [skipn app].
    rewrite firstn_app, Nat.sub_diag, firstn_all. cbn [firstn]. apply app_nil_r. }
  rewrite Es in H. unfold bytes_eqb in H. destruct (list_eq_dec _ sig sig); [discriminate|contradiction].
Qed.
Example sample_reads : exists f, fst (file cfg0 (cursor sample)) = Ok f /\
  mem_read_entry toy {| m_data := sample; m_file := f |} 0 = Ok data1 /\
  mem_read_entry toy {| m_data := sample; m_file := f |} 1 = Ok [x78; x79].
Proof. eexists. split; [vm_compute; reflexivity|]. split; vm_compute; reflexivity. Qed.
Definition at_pos (sig d : bytes) (q : N) : bool := bytes_eqb (firstn (length sig) (skipn (N.to_nat q) d)) sig.
Lemma not_at_ok sig d q : at_pos sig d q = false -> ~ found_at sig d q.
Proof.
  intros H (a & b & E & L). unfold at_pos in H.
  assert (Hlen : (N.to_nat q = length a)%nat) by (unfold len in L; lia).
  assert (Es : firstn (length sig) (skipn (N.to_nat q) d) = sig).
  { rewrite Hlen, E, skipn_app, skipn_all, Nat.sub_diag. cbn [skipn app].
    rewrite firstn_app, Nat.sub_diag, firstn_all. cbn [firstn]. apply app_nil_r. }
  rewrite Es in H. unfold bytes_eqb in H. destruct (list_eq_dec _ sig sig); [discriminate|contradiction].
Qed.
Ltac ands := repeat match goal with |- _ /\ _ => split end.
Lemma samples_ok : Forall member_ok [member1; member2].
Proof.
  constructor; [|constructor; [|constructor]]; unfold member_ok; ands.
  all: match goal with
       | |- Forall _ _ => idtac
       | |- _ -> _ -> _ => intros _ _; try discriminate
       | _ => vm_compute; try reflexivity end.
  all: cbn [a_before a_after member1 member2]; repeat (apply Forall_cons || apply Forall_nil); unfold plain_field; ands;
    try discriminate; reflexivity.
Qed.
