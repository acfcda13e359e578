(** Which differences of the content the check value tells. *)
From Verif Require Import Base SpecFormat SpecCrc SpecArchive SpecRead ZString ZDate Headers ExtraField Entry IO Reader EntryReader Crc32 BaseFacts CrcFacts IOFacts EntryProofs ReadProofs.

(** ** Bits *)
Lemma steps_bound m : forall s, s < 4294967296 -> fold_left crc_step m s < 4294967296.
Proof. induction m as [|b m IH]; intros s H; [exact H|]. apply IH. now apply crc_step_bound. Qed.
Lemma step_inj a b m : a < 4294967296 -> b < 4294967296 -> crc_step a m = crc_step b m -> a = b.
Proof.
  intros A B E. unfold crc_step in E.
  assert (M : N.b2n m < 2 ^ 32) by (destruct m; reflexivity).
  apply crc_bit_inj in E; [now apply lxor_inj_r in E|apply (lxor_lt _ _ 32); [exact A|exact M]|apply (lxor_lt _ _ 32); [exact B|exact M]].
Qed.
Lemma steps_inj m : forall a b, a < 4294967296 -> b < 4294967296 -> fold_left crc_step m a = fold_left crc_step m b -> a = b.
Proof.
  induction m as [|x m IH]; intros a b A B E; [exact E|]. cbn [fold_left] in E. apply IH in E; [|now apply crc_step_bound|now apply crc_step_bound].
  now apply step_inj in E.
Qed.
Lemma lxor_swap a b c d : N.lxor (N.lxor a b) (N.lxor c d) = N.lxor (N.lxor a c) (N.lxor b d).
Proof. rewrite !N.lxor_assoc. f_equal. rewrite <- !N.lxor_assoc. f_equal. apply N.lxor_comm. Qed.
Lemma step_linear a b x y : crc_step (N.lxor a b) (xorb x y) = N.lxor (crc_step a x) (crc_step b y).
Proof.
  unfold crc_step. rewrite <- crc_bit_linear, lxor_swap. do 2 f_equal. now destruct x, y.
Qed.
Lemma steps_linear u : forall v a b, length u = length v ->
  fold_left crc_step (add_front u v) (N.lxor a b) = N.lxor (fold_left crc_step u a) (fold_left crc_step v b).
Proof.
  induction u as [|x u IH]; intros [|y v] a b L; cbn in L; try discriminate; [reflexivity|].
  cbn [add_front fold_left]. rewrite step_linear. apply IH. lia.
Qed.
Lemma zeros_step k : forall s, fold_left crc_step (repeat false k) s = iter_bit k s.
Proof.
  induction k as [|k IH]; intro s; [reflexivity|]. cbn [repeat fold_left iter_bit]. rewrite IH. unfold crc_step. cbn [N.b2n]. now rewrite N.lxor_0_r.
Qed.
Lemma iter_zero k : iter_bit k 0 = 0.
Proof. induction k as [|k IH]; [reflexivity|exact IH]. Qed.
Lemma lxor_eq_0 a b : N.lxor a b = 0 <-> a = b.
Proof. split; [apply N.lxor_eq|intros ->; apply N.lxor_nilpotent]. Qed.

Lemma message_length l : length (message_bits l) = (8 * length l)%nat.
Proof. induction l as [|b l IH]; [reflexivity|]. unfold message_bits in *. cbn [map concat]. rewrite app_length, IH. cbn. lia. Qed.
Lemma crc_steps l l' : crc32_spec l = crc32_spec l' <-> fold_left crc_step (message_bits l) hasher_new = fold_left crc_step (message_bits l') hasher_new.
Proof.
  rewrite <- !crc32_is_spec. unfold crc32, hasher_finalize. rewrite !hasher_steps. split; [apply lxor_inj_r|now intros ->].
Qed.
(** the difference alone decides *)
Lemma told_by_difference l l' : length l = length l' ->
  (crc32_spec l = crc32_spec l' <-> fold_left crc_step (add_front (message_bits l) (message_bits l')) 0 = 0).
Proof.
  intro L. rewrite crc_steps. rewrite <- (N.lxor_nilpotent hasher_new), steps_linear by now rewrite !message_length, L. symmetry. apply lxor_eq_0.
Qed.
Lemma bits_zero k s : s < 2 ^ N.of_nat k -> (bits_of k s = repeat false k <-> s = 0).
Proof.
  intro B. split.
  - intro E. rewrite <- (of_bits_of k s B), E. clear. induction k; [reflexivity|]. cbn [repeat of_bits]. rewrite IHk. reflexivity.
  - intros ->. clear. unfold bits_of. generalize 0%nat. induction k; intro n; [reflexivity|]. cbn [seq map repeat]. rewrite N.bits_0. f_equal. apply IHk.
Qed.
Lemma multiples l l' : length l = length l' ->
  (crc32_spec l = crc32_spec l' <->
   long_division (length (message_bits l)) (add_front (message_bits l) (message_bits l') ++ repeat false 32) = repeat false 32).
Proof.
  intro L. rewrite (told_by_difference l l' L). set (e := add_front (message_bits l) (message_bits l')).
  assert (LE : length (message_bits l) = length e) by (unfold e; rewrite add_front_length, !message_length; now rewrite L). rewrite LE.
  assert (Z : e ++ repeat false 32 = add_front (bits_of 32 0) (e ++ repeat false 32)).
  { change (bits_of 32 0) with (repeat false 32). symmetry. apply add_front_zero. }
  rewrite Z, steps_division by reflexivity. rewrite bits_zero; [reflexivity|]. apply steps_bound. reflexivity.
Qed.

(** ** Bursts *)
Lemma bits_inj k : forall a b, length a = k -> length b = k -> of_bits a = of_bits b -> a = b.
Proof.
  induction k as [|k IH]; intros [|x a] [|y b] A B E; cbn in A, B; try discriminate; [reflexivity|]. cbn [of_bits] in E.
  assert (x = y /\ of_bits a = of_bits b) as [-> E2] by (destruct x, y; split; try reflexivity; lia). f_equal. apply IH; lia.
Qed.
Lemma of_bits_bound a : of_bits a < 2 ^ N.of_nat (length a).
Proof. induction a as [|x a IH]; [reflexivity|]. cbn [of_bits length]. rewrite Nat2N.inj_succ, N.pow_succ_r'. destruct x; lia. Qed.
Lemma steps_word a : forall s, fold_left crc_step a s = iter_bit (length a) (N.lxor s (of_bits a)).
Proof.
  induction a as [|x a IH]; intro s; [cbn; now rewrite N.lxor_0_r|]. cbn [fold_left length iter_bit of_bits]. rewrite IH. f_equal. unfold crc_step.
  assert (E : (if x then 1 else 0) + 2 * of_bits a = N.lxor (N.b2n x) (2 * of_bits a)).
  { destruct x; cbn [N.b2n]; [|now rewrite N.add_0_l, N.lxor_0_l]. destruct (of_bits a); reflexivity. }
  rewrite E, <- N.lxor_assoc, (crc_bit_linear (N.lxor s (N.b2n x))), crc_bit_double. reflexivity.
Qed.
Lemma burst l l' p u v q : message_bits l = p ++ u ++ q -> message_bits l' = p ++ v ++ q -> length u = length v -> (length u <= 32)%nat -> u <> v ->
  crc32_spec l <> crc32_spec l'.
Proof.
  intros E E' L B NE H. apply NE. apply crc_steps in H. rewrite E, E', !fold_left_app in H.
  set (s := fold_left crc_step p hasher_new) in *. assert (S : s < 4294967296) by (apply steps_bound; reflexivity).
  apply steps_inj in H; [|now apply steps_bound|now apply steps_bound]. rewrite !steps_word, <- L in H.
  assert (W : forall w, (length w <= 32)%nat -> N.lxor s (of_bits w) < 4294967296).
  { intros w G. apply (lxor_lt _ _ 32); [exact S|]. eapply N.lt_le_trans; [apply of_bits_bound|]. apply N.pow_le_mono_r; lia. }
  apply iter_bit_inj in H; [|apply W; lia|apply W; lia]. rewrite (N.lxor_comm s), (N.lxor_comm s) in H. apply lxor_inj_r in H.
  now apply (bits_inj (length u)).
Qed.

(** ** Two bits *)
(** A linear map on 32 bits, told by what it makes of each bit. *)
Fixpoint apply_to (m : list N) (v : N) : N :=
  match m with [] => 0 | c :: r => N.lxor (if N.odd v then c else 0) (apply_to r (N.div2 v)) end.
Definition columns (f : N -> N) : list N := map (fun i => f (2 ^ N.of_nat i)) (seq 0 32).
Definition after (m n : list N) : list N := map (apply_to m) n.
Definition linear (f : N -> N) : Prop := f 0 = 0 /\ forall a b, f (N.lxor a b) = N.lxor (f a) (f b).
Lemma low_bit v : v = N.lxor (if N.odd v then 1 else 0) (2 * N.div2 v).
Proof. rewrite (N.div2_odd v) at 1. destruct (N.odd v); destruct (N.div2 v); reflexivity. Qed.
Lemma apply_linear f k : linear f -> forall j v, v < 2 ^ N.of_nat k ->
  apply_to (map (fun i => f (2 ^ N.of_nat i)) (seq j k)) v = f (2 ^ N.of_nat j * v).
Proof.
  intros [F0 F]. induction k as [|k IH]; intros j v B.
  - cbn in B |- *. replace v with 0 by lia. now rewrite N.mul_0_r.
  - cbn [seq map apply_to]. rewrite IH.
    + assert (E : 2 ^ N.of_nat j * v = N.lxor (if N.odd v then 2 ^ N.of_nat j else 0) (2 ^ N.of_nat (S j) * N.div2 v)).
      { rewrite Nat2N.inj_succ, N.pow_succ_r'. replace (2 * 2 ^ N.of_nat j * N.div2 v) with (2 ^ N.of_nat j * (2 * N.div2 v)) by lia.
        rewrite (low_bit v) at 1. rewrite !(N.mul_comm (2 ^ N.of_nat j)), <- !N.shiftl_mul_pow2, N.shiftl_lxor. f_equal.
        destruct (N.odd v); [now rewrite N.shiftl_1_l|apply N.shiftl_0_l]. }
      rewrite E, F. f_equal. destruct (N.odd v); [reflexivity|now symmetry].
    + rewrite Nat2N.inj_succ, N.pow_succ_r' in B. rewrite N.div2_div. apply N.div_lt_upper_bound; lia.
Qed.
Lemma columns_apply f v : linear f -> v < 4294967296 -> apply_to (columns f) v = f v.
Proof. intros F B. unfold columns. rewrite (apply_linear f 32 F 0 v B). f_equal. change (2 ^ N.of_nat 0) with 1. lia. Qed.
Lemma iter_linear k : linear (iter_bit k).
Proof. split; [apply iter_zero|apply iter_bit_linear]. Qed.
Lemma columns_after j k : after (columns (iter_bit k)) (columns (iter_bit j)) = columns (iter_bit (j + k)).
Proof.
  unfold after. unfold columns at 2. rewrite map_map. apply map_ext_in. intros i I. apply in_seq in I.
  rewrite columns_apply; [now rewrite iter_bit_add|apply iter_linear|]. apply iter_bit_bound. change 4294967296 with (2 ^ 32). apply N.pow_lt_mono_r; lia.
Qed.
Fixpoint power (n : positive) : list N :=
  match n with
  | xH => columns crc_bit
  | xO p => let m := power p in after m m
  | xI p => let m := power p in after (columns crc_bit) (after m m)
  end.
Lemma power_is n : power n = columns (iter_bit (Pos.to_nat n)).
Proof.
  induction n as [p IH|p IH|]; cbn [power].
  - cbv zeta. rewrite IH, columns_after. change crc_bit with (iter_bit 1). rewrite columns_after. f_equal. f_equal. rewrite Pos2Nat.inj_xI. lia.
  - cbv zeta. rewrite IH, columns_after. f_equal. f_equal. rewrite Pos2Nat.inj_xO. lia.
  - reflexivity.
Qed.
Lemma power_iter n : apply_to (power n) 1 = iter_bit (Pos.to_nat n) 1.
Proof. rewrite power_is. apply columns_apply; [apply iter_linear|reflexivity]. Qed.

Definition turns (n : N) : N := iter_bit (N.to_nat n) 1.
Lemma turns_power n : turns (Npos n) = apply_to (power n) 1.
Proof. unfold turns. now rewrite power_iter, <- positive_N_nat. Qed.
Definition period : N := 4294967295.
Lemma full_turn : turns period = 1.
Proof. unfold period. rewrite turns_power. vm_compute. reflexivity. Qed.
Lemma no_part q : In q [3; 5; 17; 257; 65537] -> turns (period / q) <> 1.
Proof. intros [<-|[<-|[<-|[<-|[<-|[]]]]]]; (match goal with |- turns (period / ?q) <> 1 => let n := eval vm_compute in (period / q) in change (period / q) with n end); rewrite turns_power; vm_compute; discriminate. Qed.
Lemma iter_times j n : turns n = 1 -> turns (j * n) = 1.
Proof.
  intro T. unfold turns in *. rewrite N2Nat.inj_mul. induction (N.to_nat j) as [|k IH]; [reflexivity|]. cbn [Nat.mul]. now rewrite iter_bit_add, T.
Qed.
Lemma turns_add a b : turns a = 1 -> turns (a + b) = turns b.
Proof. intro T. unfold turns in *. now rewrite N2Nat.inj_add, iter_bit_add, T. Qed.
Lemma turns_gcd a b : turns a = 1 -> turns b = 1 -> a <> 0 -> turns (N.gcd a b) = 1.
Proof.
  intros A B NZ. destruct (N.gcd_bezout_pos a b ltac:(lia)) as (x & y & E).
  pose proof (iter_times x a A) as TA. pose proof (iter_times y b B) as TB. rewrite E in TA. rewrite N.add_comm in TA. now rewrite turns_add in TA by exact TB.
Qed.

(** primes by trial *)
Lemma only_divisors q d : In q [3; 5; 17; 257; 65537] -> (d | q) -> d = 1 \/ d = q.
Proof.
  intros I (e & E).
  assert (S : forall r, 2 <= r -> r <= 256 -> r <> q -> (r | q) -> False).
  { intros r R1 R2 R3 R4. apply (N.mod_divide q r) in R4; [|lia].
    assert (C : forallb (fun r => (N.of_nat r =? q) || negb (q mod N.of_nat r =? 0)) (seq 2 255) = true).
    { destruct I as [<-|[<-|[<-|[<-|[<-|[]]]]]]; vm_compute; reflexivity. }
    rewrite forallb_forall in C. specialize (C (N.to_nat r)). rewrite N2Nat.id in C. rewrite R4, N.eqb_refl in C. cbn [negb orb] in C.
    rewrite orb_false_r in C. assert (In (N.to_nat r) (seq 2 255)) by (apply in_seq; lia). specialize (C H). apply N.eqb_eq in C. contradiction. }
  assert (Q : q <= 65537 /\ 3 <= q) by (destruct I as [<-|[<-|[<-|[<-|[<-|[]]]]]]; lia).
  destruct (N.eq_dec d 1) as [D1|D1]; [now left|]. destruct (N.eq_dec d q) as [D2|D2]; [now right|]. exfalso.
  assert (d <> 0) by (intros ->; lia). assert (e <> 0) by (intros ->; lia).
  destruct (N.le_gt_cases d 256) as [G|G].
  - apply (S d); try lia. now exists e.
  - assert (e <= 256) by nia. assert (e <> 1) by (intros ->; lia). assert (e <> q) by nia. apply (S e); try lia. exists d. lia.
Qed.
Lemma some_factor m : (m | period) -> m <> 1 -> exists q, In q [3; 5; 17; 257; 65537] /\ (q | m).
Proof.
  intros D NE.
  assert (C : forall q, In q [3; 5; 17; 257; 65537] -> (q | m) \/ N.gcd m q = 1).
  { intros q I. destruct (only_divisors q (N.gcd m q) I (N.gcd_divide_r m q)) as [G|G]; [now right|left]. rewrite <- G. apply N.gcd_divide_l. }
  destruct (C 3) as [H|C1]; [cbn; tauto|exists 3; cbn; tauto|]. destruct (C 5) as [H|C2]; [cbn; tauto|exists 5; cbn; tauto|].
  destruct (C 17) as [H|C3]; [cbn; tauto|exists 17; cbn; tauto|]. destruct (C 257) as [H|C4]; [cbn; tauto|exists 257; cbn; tauto|].
  destruct (C 65537) as [H|C5]; [cbn; tauto|exists 65537; cbn; tauto|]. exfalso. apply NE.
  change period with (3 * (5 * (17 * (257 * 65537)))) in D.
  apply N.gauss in D; [|exact C1]. apply N.gauss in D; [|exact C2]. apply N.gauss in D; [|exact C3]. apply N.gauss in D; [|exact C4].
  apply N.divide_gcd_iff in D; [|lia]. congruence.
Qed.
Lemma never_back k : 0 < k -> k < period -> turns k <> 1.
Proof.
  intros K1 K2 T. pose proof (turns_gcd k period T full_turn ltac:(lia)) as G.
  pose proof (N.gcd_divide_l k period) as D1. pose proof (N.gcd_divide_r k period) as (m & M). set (g := N.gcd k period) in *.
  apply N.divide_pos_le in D1; [|exact K1].
  assert (m <> 1) by (intros ->; lia).
  destruct (some_factor m) as (q & I & (j & J)); [exists g; lia|assumption|]. apply (no_part q I).
  assert (q <> 0) by (destruct I as [<-|[<-|[<-|[<-|[<-|[]]]]]]; lia).
  replace (period / q) with (j * g); [now apply iter_times|]. apply N.div_unique_exact; [assumption|]. rewrite M, J. lia.
Qed.

Lemma two_bits l l' p m q b c : message_bits l = p ++ b :: m ++ c :: q -> message_bits l' = p ++ negb b :: m ++ negb c :: q ->
  N.of_nat (length m) + 1 < period -> crc32_spec l <> crc32_spec l'.
Proof.
  intros E E' L H.
  assert (LL : length l = length l').
  { apply (f_equal (@length bool)) in E, E'. rewrite message_length in E, E'. rewrite app_length in E, E'. cbn [length] in E, E'. rewrite app_length in E, E'. cbn [length] in E, E'. lia. }
  apply told_by_difference in H; [|exact LL]. rewrite E, E' in H.
  assert (SELF : forall u, add_front u u = repeat false (length u)).
  { induction u as [|x u IH]; [reflexivity|]. cbn. now rewrite xorb_nilpotent, IH. }
  assert (APP : forall u v u' v', length u = length u' -> add_front (u ++ v) (u' ++ v') = add_front u u' ++ add_front v v').
  { induction u as [|x u IH]; intros v [|x' u'] v' G; cbn in G; try discriminate; [reflexivity|]. cbn. f_equal. apply IH. lia. }
  rewrite APP, SELF in H by reflexivity. cbn [add_front] in H. rewrite APP, SELF in H by reflexivity. cbn [add_front] in H. rewrite SELF in H.
  assert (X : forall x, xorb x (negb x) = true) by (intros []; reflexivity). rewrite !X in H.
  rewrite fold_left_app in H. rewrite (zeros_step (length p)), iter_zero in H. cbn [fold_left] in H. rewrite fold_left_app in H. cbn [fold_left] in H. rewrite !zeros_step in H.
  assert (Z : iter_bit (length q) (crc_step (iter_bit (length m) (crc_step 0 true)) true) = iter_bit (length q) 0) by now rewrite iter_zero.
  assert (B1 : iter_bit (length m) (crc_step 0 true) < 4294967296) by (apply iter_bit_bound; reflexivity).
  apply iter_bit_inj in Z; [|now apply crc_step_bound|reflexivity]. unfold crc_step at 1 in Z. cbn [N.b2n] in Z.
  change 0 with (crc_bit 0) in Z. apply crc_bit_inj in Z; [|apply (lxor_lt _ _ 32); [exact B1|reflexivity]|reflexivity].
  apply N.lxor_eq in Z. apply (never_back (N.of_nat (length m) + 1)); [lia|exact L|].
  unfold turns. rewrite N2Nat.inj_add, Nat2N.id. change (N.to_nat 1) with 1%nat. rewrite Nat.add_comm. exact Z.
Qed.

(** ** Entries *)
Lemma replaced_result cd e pre post d d' :
  en_compression (st_entry e) = Stored -> len d = en_compressed_size (st_entry e) -> len d' = len d ->
  data_start (pre ++ d ++ post) (st_file_offset e) = len pre -> st_file_offset e + 30 <= len pre ->
  read_result cd e (pre ++ d ++ post) = Ok d ->
  read_result cd e (pre ++ d' ++ post) = if crc32_spec d' =? crc32_spec d then Ok d' else Err CRC32CheckError.
Proof.
  intros Hc Hl Hl' Hd Ho H. unfold read_result in *. rewrite Hc in *.
  assert (T : forall r, take 30 (drop (st_file_offset e) (pre ++ r)) = take 30 (drop (st_file_offset e) pre)).
  { intro r. rewrite drop_app_le by lia. rewrite take_app_le; [reflexivity|]. rewrite len_drop. lia. }
  pose proof (data_offset_spec (pre ++ d ++ post) (st_file_offset e)) as S.
  rewrite T in *. destruct (data_offset _ _) as [q|x|p]; cbn [rbind] in *; try discriminate.
  specialize (S q eq_refl). rewrite Hd in S. subst q. rewrite !drop_app_exact in * by reflexivity.
  rewrite take_app_exact in H by exact Hl. rewrite take_app_exact by congruence. cbn [decoded] in *.
  destruct (N.eqb_spec (crc32_spec d) (en_crc32 (st_entry e))) as [E|E]; [|discriminate H]. rewrite <- E. reflexivity.
Qed.
Lemma replaced cd f i e pre post d d' : entry_at f i = Some e ->
  en_compression (st_entry e) = Stored -> len d = en_compressed_size (st_entry e) -> len d' = len d ->
  data_start (pre ++ d ++ post) (st_file_offset e) = len pre -> st_file_offset e + 30 <= len pre ->
  forall s s', s_data s = pre ++ d ++ post -> s_data s' = pre ++ d' ++ post -> nofail (s_sched s) -> nofail (s_sched s') ->
  read_entry cd f i s = Ok d ->
  read_entry cd f i s' = if crc32_spec d' =? crc32_spec d then Ok d' else Err CRC32CheckError.
Proof.
  intros E Hc Hl Hl' Hd Ho s s' Es Es' N N'. rewrite !read_entry_closed by easy. rewrite E, Es, Es'. now apply replaced_result.
Qed.
