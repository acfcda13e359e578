(** Properties C68 and C69: entries and contents are exactly what stands in the bytes. *)
From Verif Require Import Base BaseFacts SpecFormat SpecCrc SpecArchive SpecRead SpecStream SpecStrict SpecExact SpecThrough ZString Headers ExtraField Entry IO IOFacts Reader
  EntryReader StreamReader Samples ExactProofs ThroughProofs FaultWalkProofs.

(** * C68. A walk through the stream gives exactly what stands in the bytes, whatever is read and whatever is skipped. *)
Theorem C68_reported cd cfg pl s n i ys : len (s_data s) < 0x10000000000000000 ->
  pick cd cfg pl n i s = Ok ys -> exists xs, goes cd (past (s_pos s) (s_data s)) xs /\ picked pl i xs ys.
Proof. exact (fun L => pick_sound cd cfg pl (s_data s) L n i s ys eq_refl). Qed.
Print Assumptions C68_reported.
Theorem C68_taken cd cfg pl s i xs : nofail (s_sched s) -> len (s_data s) < 0x10000000000000000 ->
  goes cd (past (s_pos s) (s_data s)) xs -> forall n, (length xs < n)%nat -> exists ys, pick cd cfg pl n i s = Ok ys /\ picked pl i xs ys.
Proof. exact (fun N L G n H => pick_takes cd cfg pl (s_data s) L _ xs G s (s_pos s) (conj eq_refl (conj eq_refl N)) eq_refl i n H). Qed.
Print Assumptions C68_taken.
(** The bytes can be taken in one way only, and an entry takes 30 of them at least. *)
Theorem C68_single cd l xs ys : len l < 0x10000000000000000 -> goes cd l xs -> goes cd l ys -> xs = ys.
Proof. exact (goes_unique cd l xs ys). Qed.
Print Assumptions C68_single.
Theorem C68_bounded cd l xs : goes cd l xs -> 30 * len xs <= len l.
Proof. exact (goes_size cd l xs). Qed.
Print Assumptions C68_bounded.
(** A source that fails adds its own error and nothing else, though the caller of [skip] does not look at what became of its reads. *)
Theorem C68_faults cd cfg pl n i s :
  let plain := {| s_data := s_data s; s_pos := s_pos s; s_sched := [] |} in
  (exists c, In (RFail c) (s_sched s) /\ pick cd cfg pl n i s = Err (UpstreamReadError (IoOther c))) \/
  match pick cd cfg pl n i s with Ok ys => exists zs, pick cd cfg pl n i plain = Ok zs | r => pick cd cfg pl n i plain = r end.
Proof. exact (pick_faults cd cfg pl n i s). Qed.
Print Assumptions C68_faults.
(** So every walk comes to an end; the only panic is that of [C38]. *)
Theorem C68_ends cd cfg pl s n i p : len (s_data s) < 0x10000000000000000 -> len (s_data s) - s_pos s < 30 * N.of_nat n ->
  pick cd cfg pl n i s = Panic p -> p = POverflow /\ overflow_checks cfg = true.
Proof. exact (pick_ends cd cfg pl s n i p). Qed.
Print Assumptions C68_ends.
Definition second_only : plan := fun i _ => match i with 1%nat => None | _ => Some [1] end.
Definition bumpy_sample : source := {| s_data := sample; s_pos := 0; s_sched := [RPending; RChunk 3; RChunk 0; RPending; RChunk 1] |}.
Example C68_case : nofail (s_sched bumpy_sample) /\ len (s_data bumpy_sample) < 0x10000000000000000 /\
  match pick toy cfg0 second_only 9 0 bumpy_sample with Ok ys => map snd ys = [[x68]; [x78; x79]] | _ => False end /\
  exists xs, goes toy sample xs /\ map snd xs = [data1; [x78; x79]].
Proof.
  assert (Nf : nofail (s_sched bumpy_sample)) by (repeat constructor). assert (L : len sample < 0x10000000000000000) by (vm_compute; reflexivity).
  split; [exact Nf|]. split; [exact L|]. split; [vm_compute; reflexivity|].
  set (all := fun (_ : nat) (_ : zentry) => @None (list N)).
  assert (H : match pick toy cfg0 all 9 0 bumpy_sample with Ok ys => map snd ys = [data1; [x78; x79]] | _ => False end) by (vm_compute; reflexivity).
  destruct (pick toy cfg0 all 9 0 bumpy_sample) as [ys|e|p] eqn:P; [|destruct H|destruct H].
  destruct (C68_reported toy cfg0 all bumpy_sample 9 0 ys L P) as (xs & G & Q). exists xs. split; [exact G|].
  assert (E : forall a i b, picked all i a b -> b = a).
  { clear. induction a as [|[z o] a IH]; intros i [|[z' o'] b] Q; try contradiction; [reflexivity|]. destruct Q as (-> & -> & Q). now rewrite (IH _ _ Q). }
  now rewrite <- (E _ _ _ Q).
Qed.
(** a source that fails while the first entry is read in part, which the caller does not notice, and then works *)
Definition shaky_sample : source := {| s_data := sample; s_pos := 0; s_sched := repeat (RChunk 999) 3 ++ [RFail 7; RChunk 3] |}.
Example C68_shaky : match pick toy cfg0 (fun i _ => match i with 1%nat => None | _ => Some [1; 1] end) 9 0 shaky_sample with Ok ys => map snd ys = [[x68]; [x78; x79]] | _ => False end.
Proof. vm_compute. reflexivity. Qed.
(** What a data descriptor says is not looked at: with another CRC and other sizes in it the walk is the same. *)
Definition with_descriptor (dd : bytes) : bytes := firstn 67 sample ++ data2 ++ dd ++ le 4 0x02014b50.
Example C68_lenient : exists ys, pick toy cfg0 (fun _ _ => None) 9 0 (cursor (with_descriptor (descriptor true false (crc32_spec [x78; x79]) 5 2))) = Ok ys /\
  pick toy cfg0 (fun _ _ => None) 9 0 (cursor (with_descriptor (descriptor true false 77 99 3))) = Ok ys /\ map snd ys = [data1; [x78; x79]].
Proof. eexists. split; [vm_compute; reflexivity|]. split; vm_compute; reflexivity. Qed.

(** * C69. Reading an entry by the directory: the outcome in every case. *)
Theorem C69_outcome cd f i s : nofail (s_sched s) ->
  read_entry cd f i s = match entry_at f i with None => Err EntryIndexOutOfBounds | Some e => outcome cd (s_data s) e end.
Proof. exact (read_outcome cd f i s). Qed.
Print Assumptions C69_outcome.
Theorem C69_outcome_mem cd m i :
  mem_read_entry cd m i = match entry_at (m_file m) i with None => Err EntryIndexOutOfBounds | Some e => outcome cd (m_data m) e end.
Proof. exact (mem_outcome cd m i). Qed.
Print Assumptions C69_outcome_mem.
(** A caller that opens an archive and reads every entry has what stands in the bytes. *)
Theorem C69_reported cd cfg d xs : read_everything cd cfg d = Ok xs -> exists x rs, says d x rs /\ Forall2 (stands_there cd d) rs xs.
Proof. exact (everything_reads cd cfg d xs). Qed.
Print Assumptions C69_reported.
Theorem C69_taken cd cfg d x rs xs : len d < 0xFFFFFFFFFFFE0000 -> says d x rs -> Forall2 (stands_there cd d) rs xs ->
  len d <= n_at x + 65557 -> n_count x * entry_mem_size cfg <= isize_max ->
  match n_locator x with Some lo => lo + 4 < 0x10000000000000000 | None => True end ->
  read_everything cd cfg d = Ok xs.
Proof. exact (everything_takes cd cfg d x rs xs). Qed.
Print Assumptions C69_taken.
Definition contents_of (r : res (list (stored_entry * bytes))) : option (list bytes) := match r with Ok xs => Some (map snd xs) | _ => None end.
Example C69_case : contents_of (read_everything toy cfg0 sample) = Some [data1; [x78; x79]] /\ len sample < 0xFFFFFFFFFFFE0000 /\
  exists x rs xs, says sample x rs /\ Forall2 (stands_there toy sample) rs xs /\ map snd xs = [data1; [x78; x79]].
Proof.
  assert (H : contents_of (read_everything toy cfg0 sample) = Some [data1; [x78; x79]]) by (vm_compute; reflexivity).
  split; [exact H|]. split; [vm_compute; reflexivity|]. destruct (read_everything toy cfg0 sample) as [xs|e|p] eqn:E; try discriminate H.
  destruct (C69_reported _ _ _ _ E) as (x & rs & S & F). exists x, rs, xs. split; [exact S|]. split; [exact F|]. now injection H.
Qed.
(** each way it can go *)
Definition at_offset (n : N) (e : stored_entry) : stored_entry := {| st_entry := st_entry e; st_file_offset := n; st_header_size := st_header_size e |}.
Definition sample_entry : stored_entry := {| st_entry := set_crc32 (set_compressed_size (entry_new (zs_from_string [x61]) Stored) 3) (crc32_spec data1); st_file_offset := 0; st_header_size := 31 |}.
Example C69_ways : outcome toy sample sample_entry = Ok data1 /\
  outcome toy sample {| st_entry := set_crc32 (st_entry sample_entry) 5; st_file_offset := 0; st_header_size := 31 |} = Err CRC32CheckError /\
  outcome toy sample {| st_entry := set_compression (st_entry sample_entry) Deflate; st_file_offset := 0; st_header_size := 31 |} = Err (UpstreamReadError InvalidData) /\
  outcome toy sample (at_offset 1 sample_entry) = Err (UnexpectedHeaderError 0x0a04034b 0x04034b50) /\
  outcome toy (firstn 20 sample) sample_entry = Err (UpstreamReadError UnexpectedEof) /\
  outcome toy sample (at_offset 999 sample_entry) = Err (UpstreamReadError UnexpectedEof).
Proof. vm_compute. repeat split; reflexivity. Qed.
