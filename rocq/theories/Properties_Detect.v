(** Property theorems: what the check value tells. *)
From Verif Require Import Base BaseFacts SpecFormat SpecCrc SpecArchive SpecRead ZString ZDate Headers ExtraField Entry
  IO IOFacts Reader EntryReader Samples DetectProofs.

(** * C84. Differences of up to 32 adjacent bits, and any two bits, are told by the check value. *)
Theorem C84_exact l l' : length l = length l' ->
  (crc32_spec l = crc32_spec l' <->
   long_division (length (message_bits l)) (add_front (message_bits l) (message_bits l') ++ repeat false 32) = repeat false 32).
Proof. exact (multiples l l'). Qed.
Print Assumptions C84_exact.
Theorem C84_burst l l' p u v q : message_bits l = p ++ u ++ q -> message_bits l' = p ++ v ++ q -> length u = length v -> (length u <= 32)%nat -> u <> v ->
  crc32_spec l <> crc32_spec l'.
Proof. exact (burst l l' p u v q). Qed.
Print Assumptions C84_burst.
Theorem C84_two_bits l l' p m q b c : message_bits l = p ++ b :: m ++ c :: q -> message_bits l' = p ++ negb b :: m ++ negb c :: q ->
  N.of_nat (length m) + 1 < 4294967295 -> crc32_spec l <> crc32_spec l'.
Proof. exact (two_bits l l' p m q b c). Qed.
Print Assumptions C84_two_bits.
(** The data of a stored entry replaced by as many other bytes. *)
Theorem C84_entry cd f i e pre post d d' : entry_at f i = Some e ->
  en_compression (st_entry e) = Stored -> len d = en_compressed_size (st_entry e) -> len d' = len d ->
  data_start (pre ++ d ++ post) (st_file_offset e) = len pre -> st_file_offset e + 30 <= len pre ->
  forall s s', s_data s = pre ++ d ++ post -> s_data s' = pre ++ d' ++ post -> nofail (s_sched s) -> nofail (s_sched s') ->
  read_entry cd f i s = Ok d ->
  read_entry cd f i s' = if crc32_spec d' =? crc32_spec d then Ok d' else Err CRC32CheckError.
Proof. exact (replaced cd f i e pre post d d'). Qed.
Print Assumptions C84_entry.

Definition hello : bytes := [x68; x65; x6c; x6c; x6f; x20; x77; x6f].
(** Two bits 53 apart: the fourth of the first byte and the first of the last. *)
Example C84_case : let m := firstn 52 (skipn 4 (message_bits hello)) in
  message_bits hello = firstn 3 (message_bits hello) ++ true :: m ++ true :: skipn 57 (message_bits hello) /\
  message_bits [x60; x65; x6c; x6c; x6f; x20; x77; x6e] = firstn 3 (message_bits hello) ++ negb true :: m ++ negb true :: skipn 57 (message_bits hello) /\
  N.of_nat (length m) + 1 = 53.
Proof. vm_compute. repeat split; reflexivity. Qed.
(** 32 bits that begin in the middle of a byte and so touch five *)
Example C84_case_burst : let u := firstn 32 (skipn 4 (message_bits hello)) in
  message_bits hello = firstn 4 (message_bits hello) ++ u ++ skipn 36 (message_bits hello) /\
  message_bits [x98; x9a; x93; x93; x60; x20; x77; x6f] = firstn 4 (message_bits hello) ++ map negb u ++ skipn 36 (message_bits hello) /\ u <> map negb u.
Proof. vm_compute. split; [reflexivity|]. split; [reflexivity|discriminate]. Qed.
(** Both bounds are sharp: 33 bits that differ like the generator are not told ... *)
Example C84_unseen : message_bits [x41; x06; x71; xdb; x01] = (true :: generator) ++ repeat false 7 /\
  crc32_spec [x41; x06; x71; xdb; x01] = crc32_spec [x00; x00; x00; x00; x00].
Proof. split; vm_compute; reflexivity. Qed.
(** ... and a bit stands for the same as the one 2^32 - 1 places before. *)
Example C84_far : turns 4294967295 = turns 0 /\ forall k, 0 < k -> k < 4294967295 -> turns k <> turns 0.
Proof. split; [exact full_turn|exact never_back]. Qed.
(** Two bits of a stored entry of an archive. *)
Example C84_case_entry : exists f, fst (file cfg0 (cursor sample)) = Ok f /\
  read_entry toy f 0 (cursor sample) = Ok data1 /\ sample = firstn 31 sample ++ data1 ++ skipn 34 sample /\
  read_entry toy f 0 (cursor (firstn 31 sample ++ [x69; x69; xa1] ++ skipn 34 sample)) = Err CRC32CheckError.
Proof.
  eexists. split; [vm_compute; reflexivity|]. split; [vm_compute; reflexivity|]. split; [vm_compute; reflexivity|].
  assert (NE : crc32_spec [x69; x69; xa1] <> crc32_spec data1).
  { apply not_eq_sym. apply (C84_two_bits data1 [x69; x69; xa1] [] (firstn 22 (skipn 1 (message_bits data1))) [] false false); vm_compute; reflexivity. }
  apply N.eqb_neq in NE.
  erewrite (C84_entry toy _ 0 _ (firstn 31 sample) (skipn 34 sample) data1 [x69; x69; xa1]) with (s := cursor sample);
    [now rewrite NE|vm_compute; reflexivity|..]; try (vm_compute; reflexivity); try (vm_compute; discriminate); apply Forall_nil.
Qed.
