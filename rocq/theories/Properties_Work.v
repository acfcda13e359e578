(** Property C58. *)
From Verif Require Import Base BaseFacts SpecFormat SpecCrc SpecArchive SpecRead ZString ZDate Headers ExtraField Entry IO IOFacts Reader EntryReader StreamReader
  Samples SpecWork WorkProofs.

(** * C58. Opening an archive, walking through it and reading stored data take work in proportion to its bytes. *)
(** Whatever the bytes claim and however slowly the source delivers: at most one answer per byte, and a constant. *)
Theorem C58_open cfg s : let '(r, s') := file cfg s in worked s s' (len (s_data s) + 133215).
Proof. exact (opening_work cfg s). Qed.
Print Assumptions C58_open.
Definition drip (d : bytes) (k : nat) : source := {| s_data := d; s_pos := 0; s_sched := concat (repeat [RPending; RChunk 0] k) |}.
Definition boast : bytes :=
  zip64_end 44 45 45 0 0 20000000 20000000 0 0 ++ zip64_end_locator 0 0 1 ++ end_record 0 0 0xFFFF 0xFFFF 0xFFFFFFFF 0xFFFFFFFF 0.
Definition spent (n : nat) (x : res zfile * source) : N := N.of_nat n - answers (s_sched (snd x)).
Example C58_case :
  len sample = 248 /\ is_ok (fst (file cfg0 (drip sample 900))) = true /\ spent 900 (file cfg0 (drip sample 900)) = 409 /\
  len boast = 98 /\ is_ok (fst (file cfg0 (drip boast 900))) = false /\ spent 900 (file cfg0 (drip boast 900)) = 193.
Proof. vm_compute. repeat split; reflexivity. Qed.
(** Front to back: one answer per byte of the header, and at most four more when it is wrong or the data ends. *)
Theorem C58_next cfg s : let '(r, s') := stream_next cfg s in
  s_pos s <= s_pos s' /\ worked s s' (s_pos s' - s_pos s + 4) /\
  (is_ok r = true -> s_pos s' < len (s_data s) -> worked s s' (s_pos s' - s_pos s)).
Proof. exact (next_work cfg s). Qed.
Print Assumptions C58_next.
Example C58_next_case : let '(r, s') := stream_next cfg0 (drip sample 900) in
  is_ok r = true /\ s_pos s' = 31 /\ 900 - answers (s_sched s') = 31.
Proof. vm_compute. repeat split; reflexivity. Qed.
(** A stored entry: the local header, its data, and one answer for the end of it. *)
Theorem C58_stored cd f i s r e s' : seek_reader_at f i s = (Ok (r, e), s') -> en_compression (st_entry e) = Stored ->
  let '(x, r') := er_read_to_end_checked cd (st_entry e) r in worked s (er_src r') (en_compressed_size (st_entry e) + 31).
Proof. exact (entry_work cd f i s r e s'). Qed.
Print Assumptions C58_stored.
Example C58_stored_case :
  match fst (file cfg0 (cursor sample)) with
  | Ok f => match seek_reader_at f 0 (drip sample 900) with
            | (Ok (r, e), _) => en_compression (st_entry e) = Stored /\ en_compressed_size (st_entry e) = 3 /\
                let '(x, r') := er_read_to_end_checked toy (st_entry e) r in x = Ok data1 /\ 900 - answers (s_sched (er_src r')) = 33
            | _ => False
            end
  | _ => False
  end.
Proof. vm_compute. repeat split; reflexivity. Qed.
