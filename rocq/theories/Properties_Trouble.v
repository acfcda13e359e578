(** Properties C75 and C76: every failure and what causes it. *)
From Verif Require Import Base BaseFacts SpecFormat SpecCrc SpecUtf8 SpecArchive SpecRead SpecStrict SpecExact SpecTrouble ZString ZDate Headers ExtraField Entry IO IOFacts Reader
  EntryReader StreamReader Samples ExactProofs TroubleProofs.

(** * C75. Opening fails for the stated causes only, and then as stated. *)
Theorem C75_fails cfg s t : nofail (s_sched s) -> fst (file cfg s) = failed t <-> open_fails cfg (s_data s) t.
Proof. exact (opening_fails cfg s t). Qed.
Print Assumptions C75_fails.
Theorem C75_opens cfg s : nofail (s_sched s) -> (exists f, fst (file cfg s) = Ok f) <-> openable cfg (s_data s).
Proof. exact (opening_works cfg s). Qed.
Print Assumptions C75_opens.
(** A source that fails adds its own error and nothing else. *)
Theorem C75_faults cfg s t : fst (file cfg s) = failed t ->
  open_fails cfg (s_data s) t \/ exists c, In (RFail c) (s_sched s) /\ t = Gives (UpstreamReadError (IoOther c)).
Proof. exact (opening_faults cfg s t). Qed.
Print Assumptions C75_faults.
(** No archive fails in two ways, or fails and opens. *)
Theorem C75_single cfg d t t' : open_fails cfg d t -> open_fails cfg d t' -> t = t'.
Proof. exact (open_fail_single cfg d t t'). Qed.
Print Assumptions C75_single.
Theorem C75_apart cfg d t : open_fails cfg d t -> ~ openable cfg d.
Proof. exact (open_fail_not cfg d t). Qed.
Print Assumptions C75_apart.

(** the cases, one by one *)
Definition checked : config := {| overflow_checks := true; entry_mem_size := 232 |}.
Definition unchecked : config := {| overflow_checks := false; entry_mem_size := 232 |}.
Definition nameless (method xlen : N) (rest : bytes) : bytes :=
  le 4 0x02014b50 ++ le 2 20 ++ le 2 20 ++ le 2 0 ++ le 2 method ++ le 2 0 ++ le 2 33 ++ le 4 0 ++ le 4 0 ++ le 4 0 ++ le 2 0 ++ le 2 xlen ++ le 2 0 ++ le 2 0 ++ le 2 0 ++
  le 4 0 ++ le 4 0 ++ rest.
Definition one_row (row : bytes) : bytes := row ++ end_record 0 0 1 1 (len row) 0 0.
Definition with64 (lo n : N) : bytes := zip64_end 44 45 45 0 0 n n 0 0 ++ zip64_end_locator 0 lo 1 ++ end_record 0 0 0xFFFF 0xFFFF 0 0xFFFFFFFF 0.
Definition outcome (cfg : config) (d : bytes) : res N := match fst (file cfg (cursor d)) with Ok f => Ok (len (f_entries f)) | Err e => Err e | Panic p => Panic p end.
Example C75_case :
  outcome checked [x50; x4b; x05] = Err UnableToLocateEOCDR /\
  outcome checked (firstn 21 (end_record 0 0 0 0 0 0 0)) = Err (UpstreamReadError UnexpectedEof) /\
  outcome checked (end_record 1 0 0 0 0 0 0) = Err (FeatureNotSupported FSplit) /\
  outcome checked (end_record 0 0 1 2 0 0 0) = Err (FeatureNotSupported FSplit) /\
  outcome checked (end_record 0 0 1 1 0 0 0) = Err (UnexpectedHeaderError 0x06054b50 0x02014b50) /\
  outcome checked (end_record 0 0 1 1 0 20 0) = Err (UpstreamReadError UnexpectedEof) /\
  outcome checked (one_row (nameless 99 0 [])) = Err (CompressionNotSupported 99) /\
  outcome checked (one_row (nameless 8 6 (le 2 0x7075 ++ le 2 2 ++ [x01; x00]))) = Err InfoZipUnicodePathFieldIncomplete /\
  outcome checked (one_row (nameless 8 6 (le 2 0x6375 ++ le 2 2 ++ [x01; x00]))) = Err InfoZipUnicodeCommentFieldIncomplete /\
  outcome checked (one_row (nameless 8 6 (le 2 0xCAFE ++ le 2 3 ++ [x01; x00]))) = Panic POverflow /\
  outcome unchecked (one_row (nameless 8 6 (le 2 0xCAFE ++ le 2 3 ++ [x01; x00]))) = Err (InvalidExtraFieldHeader 3 18446744073709551611) /\
  outcome checked (one_row (nameless 8 6 (le 2 0xCAFE ++ le 2 2 ++ [x01; x00]))) = Ok 1 /\
  outcome checked (with64 0 0) = Ok 0 /\
  outcome checked (with64 0xFFFFFFFFFFFFFFFE 0) = Panic POverflow /\
  outcome unchecked (with64 0xFFFFFFFFFFFFFFFC 0) = Ok 0 /\
  outcome checked (with64 90 0) = Err (UpstreamReadError UnexpectedEof) /\
  outcome checked (with64 0 0x1000000000000000) = Panic PCapacity.
Proof. vm_compute. repeat split; reflexivity. Qed.
(** the cause of one of them: the only record is sound but for a field that claims three bytes where there are two *)
Example C75_cause : open_fails unchecked (one_row (nameless 8 6 (le 2 0xCAFE ++ le 2 3 ++ [x01; x00]))) (Gives (InvalidExtraFieldHeader 3 18446744073709551611)).
Proof.
  apply of_rows with (x := {| n_at := 52; n_locator := None; n_count := 1; n_offset := 0; n_comment := [] |}); [|vm_compute; discriminate|].
  - split; [|split; [vm_compute; discriminate|exact I]]. split; [apply none_after_ok; vm_compute; reflexivity|].
    do 8 eexists. split; [vm_compute; reflexivity|]. split; [reflexivity|]. cbn [n_locator n_at n_count n_offset].
    split; [|now repeat split]. intros _ F. apply ExactProofs.signature_at in F as [_ F]; [vm_compute in F; discriminate F|reflexivity].
  - apply rs_here; [reflexivity|]. eapply rf_fields; [vm_compute; reflexivity|reflexivity|].
    apply (ff_claims unchecked _ 0xCAFE 3 [x01; x00]); reflexivity.
Qed.

(** * C76. The stream reader's next header fails for the stated causes only, and then as stated. *)
Theorem C76_fails cfg s t : nofail (s_sched s) -> fst (stream_next cfg s) = failed t <-> top_fails cfg (past (s_pos s) (s_data s)) t.
Proof. exact (next_fails cfg s t). Qed.
Print Assumptions C76_fails.
Theorem C76_faults cfg s t : fst (stream_next cfg s) = failed t ->
  top_fails cfg (past (s_pos s) (s_data s)) t \/ exists c, In (RFail c) (s_sched s) /\ t = Gives (UpstreamReadError (IoOther c)).
Proof. exact (next_faults cfg s t). Qed.
Print Assumptions C76_faults.
Theorem C76_single cfg l t t' : top_fails cfg l t -> top_fails cfg l t' -> t = t'.
Proof. exact (top_fail_single cfg l t t'). Qed.
Print Assumptions C76_single.
Definition top_bytes (flags method xlen : N) (rest : bytes) : bytes :=
  le 4 0x04034b50 ++ le 2 20 ++ le 2 flags ++ le 2 method ++ le 2 0 ++ le 2 33 ++ le 4 0 ++ le 4 0 ++ le 4 0 ++ le 2 0 ++ le 2 xlen ++ rest.
Definition next_says (cfg : config) (d : bytes) : res bool :=
  match fst (stream_next cfg (cursor d)) with Ok (Some _) => Ok true | Ok None => Ok false | Err e => Err e | Panic p => Panic p end.
Example C76_case :
  next_says checked [x50; x4b; x03] = Err (UpstreamReadError UnexpectedEof) /\
  next_says checked (end_record 0 0 0 0 0 0 0) = Err (UnexpectedHeaderError 0x06054b50 0x04034b50) /\
  next_says checked (firstn 29 (top_bytes 0 0 0 [])) = Err (UpstreamReadError UnexpectedEof) /\
  next_says checked (top_bytes 0 99 0 []) = Err (CompressionNotSupported 99) /\
  (* the method is looked at before the fields, these before the flags *)
  next_says checked (top_bytes 9 99 6 (le 2 0xCAFE ++ le 2 3 ++ [x01; x00])) = Err (CompressionNotSupported 99) /\
  next_says checked (top_bytes 9 0 6 (le 2 0xCAFE ++ le 2 3 ++ [x01; x00])) = Panic POverflow /\
  next_says unchecked (top_bytes 9 0 6 (le 2 0xCAFE ++ le 2 3 ++ [x01; x00])) = Err (InvalidExtraFieldHeader 3 18446744073709551611) /\
  next_says checked (top_bytes 9 0 6 (le 2 0xCAFE ++ le 2 2 ++ [x01; x00])) = Err (FeatureNotSupported FStreamStored) /\
  next_says checked (top_bytes 9 8 0 []) = Err (FeatureNotSupported FEncryption) /\
  next_says checked (top_bytes 8 8 0 []) = Ok true /\
  next_says checked (nameless 8 0 []) = Ok false.
Proof. vm_compute. repeat split; reflexivity. Qed.
Example C76_cause : top_fails checked (top_bytes 9 0 0 []) (Gives (FeatureNotSupported FStreamStored)).
Proof.
  eapply tf_endless; [eapply top_here; [vm_compute; reflexivity|apply sf_end; vm_compute; discriminate]|constructor|reflexivity|reflexivity].
Qed.
