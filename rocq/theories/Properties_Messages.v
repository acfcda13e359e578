(** Property theorems: what errors say of themselves. *)
From Coq Require Import String.
From Verif Require Import Base ZString Headers ExtraField Entry IO Writer Samples WriteSamples ManyFiles Messages MessageProofs.
Open Scope string_scope.

(** * C81. Errors with the same message are the same error, with the same numbers. *)
Theorem C81_apart_partial io_text : (forall i j, io_text i = io_text j -> i = j) ->
  forall e e', error_text io_text e = error_text io_text e' -> e = e'.
Proof. exact (told_apart io_text). Qed.
Print Assumptions C81_apart_partial.
(** The texts of the standard library, and the number of any other error. *)
Definition plain_text (i : io_error) : string :=
  match i with
  | UnexpectedEof => "unexpected end of file"
  | WriteZero => "write zero"
  | InvalidInput => "invalid input parameter"
  | InvalidData => "invalid data"
  | IoOther n => "other error: " ++ decimal n
  end.
Example C81_case : (forall i j, plain_text i = plain_text j -> i = j) /\
  error_text plain_text (UnexpectedHeaderError 0x04034b50 0x02014b50) = "Encountered an unexpected header (actual: 0x4034b50, expected: 0x2014b50)." /\
  error_text plain_text (InvalidExtraFieldHeader 65535 0) = "extra field size was indicated to be 65535 but only 0 bytes remain" /\
  error_text plain_text (CompressionNotSupported 99) = "compression not supported: 99" /\
  error_text plain_text (UpstreamReadError UnexpectedEof) = "an upstream reader returned an error: unexpected end of file".
Proof.
  split; [|vm_compute; repeat split]. intros i j H. destruct i, j; cbn [plain_text append] in H; try reflexivity; try discriminate H.
  repeat apply cons_inj in H. f_equal. now apply decimal_inj.
Qed.
(** What they say is not always so: "More than 65536 files in archive" is said of the 65536th one, and "File is larger than
    4 GiB" of an empty file behind 4 GiB of others. *)
Theorem C81_refuted : exists l w xs, run_ops toy l (zw_new []) = (xs, w) /\
  (exists ys o, xs = (ys ++ [(o, Err (Zip64Needed TooManyFiles))])%list) /\ len (filter adds l) = 65536%N.
Proof. exact one_too_many. Qed.
Print Assumptions C81_refuted.
Theorem C81_large_refuted : exists o1 w, run_op toy o1 (zw_new []) = (Ok tt, w) /\
  fst (run_op toy (OpWhole (tiny []) []) (set_force_no w true)) = Err (Zip64Needed LargeFile).
Proof. exact small_but_late. Qed.
Print Assumptions C81_large_refuted.
