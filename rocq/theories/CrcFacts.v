(** CRC-32: incremental, equal to polynomial long division, and injective on short windows. *)
From Verif Require Import Base BaseFacts Crc32 SpecCrc.
Arguments N.mul : simpl never.
Arguments N.add : simpl never.

Definition POLY : N := 0xEDB88320.

Lemma hasher_update_app h a b : hasher_update h (a ++ b) = hasher_update (hasher_update h a) b.
Proof. apply fold_left_app. Qed.
Lemma hasher_update_concat h ls : fold_left hasher_update ls h = hasher_update h (concat ls).
Proof.
  revert h; induction ls as [|l ls IH]; intro h; [reflexivity|].
  cbn [fold_left concat]. now rewrite IH, hasher_update_app.
Qed.

(** ** bit-level algebra *)
Lemma crc_bit_eq s : crc_bit s = N.lxor (N.div2 s) (if N.odd s then POLY else 0).
Proof. unfold crc_bit. destruct (N.odd s); [reflexivity|]. now rewrite N.lxor_0_r. Qed.

Lemma div2_lxor a b : N.div2 (N.lxor a b) = N.lxor (N.div2 a) (N.div2 b).
Proof. rewrite !N.div2_spec. apply N.shiftr_lxor. Qed.
Lemma odd_lxor a b : N.odd (N.lxor a b) = xorb (N.odd a) (N.odd b).
Proof. rewrite <- !N.bit0_odd. apply N.lxor_spec. Qed.

Lemma crc_bit_linear a b : crc_bit (N.lxor a b) = N.lxor (crc_bit a) (crc_bit b).
Proof.
  rewrite !crc_bit_eq, div2_lxor, odd_lxor.
  assert (E : (if xorb (N.odd a) (N.odd b) then POLY else 0) =
              N.lxor (if N.odd a then POLY else 0) (if N.odd b then POLY else 0)).
  { destruct (N.odd a), (N.odd b); reflexivity. }
  rewrite E, !N.lxor_assoc. f_equal. rewrite <- !N.lxor_assoc. f_equal. apply N.lxor_comm.
Qed.
Lemma crc_bit_double x : crc_bit (2 * x) = x.
Proof.
  rewrite crc_bit_eq, N.odd_mul. cbn [N.odd andb]. change (N.odd 2) with false. cbn [andb].
  rewrite N.lxor_0_r, <- N.div2_double. reflexivity.
Qed.

Lemma lxor_lt a b n : a < 2 ^ n -> b < 2 ^ n -> N.lxor a b < 2 ^ n.
Proof.
  intros Ha Hb. destruct (N.eq_dec (N.lxor a b) 0) as [E|E].
  - rewrite E. apply N.neq_0_lt_0, N.pow_nonzero. lia.
  - apply N.log2_lt_pow2; [lia|]. eapply N.le_lt_trans; [apply N.log2_lxor|].
    destruct (N.eq_dec a 0) as [->|Ea], (N.eq_dec b 0) as [->|Eb].
    + now elim E.
    + rewrite N.max_r by (cbn; lia). apply N.log2_lt_pow2; lia.
    + rewrite N.max_l by (cbn; lia). apply N.log2_lt_pow2; lia.
    + apply N.max_lub_lt; apply N.log2_lt_pow2; lia.
Qed.

Lemma crc_bit_bound s : s < 4294967296 -> crc_bit s < 4294967296.
Proof.
  intro H. rewrite crc_bit_eq. apply (lxor_lt _ _ 32).
  - rewrite N.div2_div. change (2 ^ 32) with 4294967296. lia.
  - destruct (N.odd s); reflexivity.
Qed.

Lemma testbit_small a n : a < 2 ^ n -> N.testbit a n = false.
Proof. intro H. apply N.testbit_false. rewrite N.div_small by easy. reflexivity. Qed.

Lemma crc_bit_top s : s < 4294967296 -> N.testbit (crc_bit s) 31 = N.odd s.
Proof.
  intro H. rewrite crc_bit_eq, N.lxor_spec. rewrite testbit_small.
  - now destruct (N.odd s).
  - rewrite N.div2_div. change (2 ^ 31) with 2147483648. lia.
Qed.

Lemma lxor_inj_r a b c : N.lxor a c = N.lxor b c -> a = b.
Proof.
  intro H. apply (f_equal (fun x => N.lxor x c)) in H.
  now rewrite !N.lxor_assoc, N.lxor_nilpotent, !N.lxor_0_r in H.
Qed.

Lemma crc_bit_inj a b : a < 4294967296 -> b < 4294967296 -> crc_bit a = crc_bit b -> a = b.
Proof.
  intros Ha Hb H. pose proof (crc_bit_top a Ha) as Ta. pose proof (crc_bit_top b Hb) as Tb.
  rewrite H, Tb in Ta. rewrite !crc_bit_eq, Ta in H. apply lxor_inj_r in H.
  rewrite (N.div2_odd a), (N.div2_odd b), H, Ta. reflexivity.
Qed.

Fixpoint iter_bit (k : nat) (s : N) : N := match k with O => s | S k' => iter_bit k' (crc_bit s) end.
Lemma iter_bit_add a b s : iter_bit (a + b) s = iter_bit b (iter_bit a s).
Proof. revert s; induction a; intro s; cbn [iter_bit Nat.add]; auto. Qed.
Lemma crc_bits8_iter s : crc_bits8 s = iter_bit 8 s. Proof. reflexivity. Qed.
Lemma iter_bit_bound k s : s < 4294967296 -> iter_bit k s < 4294967296.
Proof. revert s; induction k; intros s H; cbn [iter_bit]; auto using crc_bit_bound. Qed.
Lemma iter_bit_inj k a b : a < 4294967296 -> b < 4294967296 -> iter_bit k a = iter_bit k b -> a = b.
Proof.
  revert a b; induction k; intros a b Ha Hb H; cbn [iter_bit] in H; [easy|].
  apply IHk in H; auto using crc_bit_bound. now apply crc_bit_inj.
Qed.
Lemma iter_bit_linear k a b : iter_bit k (N.lxor a b) = N.lxor (iter_bit k a) (iter_bit k b).
Proof. revert a b; induction k; intros a b; cbn [iter_bit]; [easy|]. now rewrite crc_bit_linear, IHk. Qed.
Lemma iter_bit_shift k x : iter_bit k (2 ^ N.of_nat k * x) = x.
Proof.
  revert x; induction k; intro x; [cbn [iter_bit]; change (2 ^ N.of_nat 0) with 1; lia|].
  cbn [iter_bit]. rewrite Nat2N.inj_succ, N.pow_succ_r', <- N.mul_assoc, crc_bit_double. apply IHk.
Qed.

Lemma b2n_bound32 b : b2n b < 4294967296.
Proof. pose proof (b2n_bound b). lia. Qed.
Lemma crc_byte_bound s b : s < 4294967296 -> crc_byte s b < 4294967296.
Proof.
  intro H. unfold crc_byte. rewrite crc_bits8_iter. apply iter_bit_bound.
  apply (lxor_lt _ _ 32); [easy|apply b2n_bound32].
Qed.
Lemma hasher_update_bound l : forall s, s < 4294967296 -> hasher_update s l < 4294967296.
Proof. induction l as [|b l IH]; intros s H; [easy|]. apply IH. now apply crc_byte_bound. Qed.
Lemma hasher_update_inj l : forall a b, a < 4294967296 -> b < 4294967296 ->
  hasher_update a l = hasher_update b l -> a = b.
Proof.
  induction l as [|x l IH]; intros a b Ha Hb H; [easy|]. apply IH in H; auto using crc_byte_bound.
  unfold crc_byte in H. rewrite !crc_bits8_iter in H.
  apply iter_bit_inj in H; [now apply lxor_inj_r in H| |]; apply (lxor_lt _ _ 32); auto using b2n_bound32.
Qed.
Lemma crc32_bound l : crc32 l < 4294967296.
Proof.
  unfold crc32, hasher_finalize. apply (lxor_lt _ _ 32); [|reflexivity].
  apply hasher_update_bound. reflexivity.
Qed.

(** several bytes at once *)
Lemma add_lxor_low b x : b < 256 -> b + 256 * x = N.lxor b (256 * x).
Proof.
  intro H. apply N.add_nocarry_lxor. change 256 with (2 ^ 8). rewrite N.mul_comm, <- N.shiftl_mul_pow2.
  apply N.bits_inj. intro i. rewrite N.land_spec, N.bits_0.
  destruct (N.lt_ge_cases i 8).
  - rewrite N.shiftl_spec_low by easy. apply andb_false_r.
  - rewrite (N.bits_above_log2 b); [easy|]. destruct (N.eq_dec b 0) as [->|]; [cbn; lia|].
    assert (N.log2 b < 8) by (apply N.log2_lt_pow2; [lia|]; exact H). lia.
Qed.

Lemma hasher_update_word l : forall s, hasher_update s l = iter_bit (8 * length l) (N.lxor s (from_le l)).
Proof.
  induction l as [|b l IH]; intro s.
  - cbn. now rewrite N.lxor_0_r.
  - cbn [hasher_update fold_left from_le length]. fold (hasher_update (crc_byte s b) l). rewrite IH.
    replace (8 * S (length l))%nat with (8 + 8 * length l)%nat by lia. rewrite iter_bit_add. f_equal.
    rewrite add_lxor_low by apply b2n_bound. rewrite <- N.lxor_assoc, iter_bit_linear.
    f_equal. symmetry. apply (iter_bit_shift 8).
Qed.

Lemma from_le_inj a b : length a = length b -> from_le a = from_le b -> a = b.
Proof. intros L E. rewrite <- (to_from_le a), <- (to_from_le b), L, E. reflexivity. Qed.

Theorem crc_burst p x y q : length x = length y -> (length x <= 4)%nat -> x <> y ->
  crc32 (p ++ x ++ q) <> crc32 (p ++ y ++ q).
Proof.
  intros L L4 Hne H. apply Hne. unfold crc32, hasher_finalize in H. apply lxor_inj_r in H.
  rewrite !hasher_update_app in H.
  assert (B : hasher_update hasher_new p < 4294967296) by (apply hasher_update_bound; reflexivity).
  apply hasher_update_inj in H; [|apply hasher_update_bound; exact B|apply hasher_update_bound; exact B].
  revert H B. generalize (hasher_update hasher_new p). intros s0 H B.
  rewrite !hasher_update_word, L in H.
  assert (Bx : from_le x < 2 ^ 32).
  { eapply N.lt_le_trans; [apply from_le_bound|]. change (2 ^ 32) with (256 ^ 4).
    apply N.pow_le_mono_r; unfold len; lia. }
  assert (By : from_le y < 2 ^ 32).
  { eapply N.lt_le_trans; [apply from_le_bound|]. change (2 ^ 32) with (256 ^ 4).
    apply N.pow_le_mono_r; unfold len; lia. }
  apply iter_bit_inj in H; [|exact (lxor_lt _ _ 32 B Bx)|exact (lxor_lt _ _ 32 B By)].
  rewrite !(N.lxor_comm s0) in H. apply lxor_inj_r in H. now apply from_le_inj.
Qed.

(** ** the shift register performs long division *)
Definition bits_of (k : nat) (s : N) : list bool := map (fun i => N.testbit s (N.of_nat i)) (seq 0 k).

Lemma bits_of_S k s : bits_of (S k) s = N.odd s :: bits_of k (N.div2 s).
Proof.
  unfold bits_of. cbn [seq map]. f_equal; [apply N.bit0_odd|].
  rewrite <- seq_shift, map_map. apply map_ext. intro i.
  rewrite N.div2_spec, N.shiftr_spec', Nat2N.inj_succ. f_equal. lia.
Qed.
Lemma bits_of_length k s : length (bits_of k s) = k.
Proof. unfold bits_of. now rewrite map_length, seq_length. Qed.
Lemma bits_of_lxor k a b : bits_of k (N.lxor a b) = add_front (bits_of k a) (bits_of k b).
Proof.
  revert a b; induction k; intros a b; [reflexivity|].
  rewrite !bits_of_S. cbn [add_front]. now rewrite odd_lxor, div2_lxor, IHk.
Qed.
Lemma of_bits_of k : forall s, s < 2 ^ N.of_nat k -> of_bits (bits_of k s) = s.
Proof.
  induction k; intros s H; [cbn in *; lia|].
  rewrite bits_of_S. cbn [of_bits]. rewrite IHk.
  - rewrite (N.div2_odd s) at 3. destruct (N.odd s); cbn [N.b2n]; lia.
  - rewrite N.div2_div. rewrite Nat2N.inj_succ, N.pow_succ_r' in H. apply N.div_lt_upper_bound; lia.
Qed.
Lemma bits_of_snoc k s : bits_of (S k) s = bits_of k s ++ [N.testbit s (N.of_nat k)].
Proof. unfold bits_of. rewrite seq_S, map_app. reflexivity. Qed.

Lemma bits_POLY : bits_of 32 POLY = generator. Proof. reflexivity. Qed.
Lemma generator_length : length generator = 32%nat. Proof. reflexivity. Qed.

Lemma add_front_length p : forall d, length (add_front p d) = length d.
Proof. induction p; intros [|y d]; cbn; auto. Qed.
Lemma add_front_assoc p : forall q d, length p = length q ->
  add_front p (add_front q d) = add_front (add_front p q) d.
Proof.
  induction p as [|x p IH]; intros [|y q] d L; cbn in *; try discriminate; [easy|].
  destruct d; cbn; [easy|]. rewrite IH by lia. f_equal. now destruct x, y, b.
Qed.
Lemma add_front_app p : forall d e, length p = length d -> add_front p (d ++ e) = add_front p d ++ e.
Proof. induction p; intros [|y d] e L; cbn in *; try discriminate; [easy|]. now rewrite IHp by lia. Qed.
Lemma add_front_comm p : forall q, length p = length q -> add_front p q = add_front q p.
Proof.
  induction p as [|x p IH]; intros [|y q] L; cbn in *; try discriminate; [easy|].
  rewrite IH by lia. f_equal. apply xorb_comm.
Qed.
Lemma add_front_zero k : forall d, add_front (repeat false k) d = d.
Proof. induction k; intros [|y d]; cbn; try easy. rewrite IHk. now destruct y. Qed.
Lemma add_front_pad p : forall d k, length p = length d ->
  add_front (p ++ repeat false k) (d ++ repeat false k) = add_front p d ++ repeat false k.
Proof.
  induction p as [|x p IH]; intros [|y d] k L; cbn in *; try discriminate.
  - apply add_front_zero.
  - now rewrite IH by lia.
Qed.

Lemma add_front_false p : forall d, add_front (p ++ [false]) d = add_front p d.
Proof.
  induction p as [|x p IH]; intros [|y d]; cbn [add_front app]; try easy.
  - now destruct y.
  - now rewrite IH.
Qed.

(** one message bit *)
Definition crc_step (s : N) (m : bool) : N := crc_bit (N.lxor s (N.b2n m)).

Lemma step_division k s m rest : s < 4294967296 -> (31 <= length rest)%nat ->
  long_division (S k) (add_front (bits_of 32 s) (m :: rest)) =
  long_division k (add_front (bits_of 32 (crc_step s m)) rest).
Proof.
  intros Hs Hl. rewrite bits_of_S. cbn [add_front long_division]. f_equal.
  set (t := N.lxor s (N.b2n m)).
  assert (Ho : xorb (N.odd s) m = N.odd t).
  { unfold t. rewrite odd_lxor. now destruct m. }
  assert (Hd : N.div2 s = N.div2 t).
  { unfold t. rewrite div2_lxor. destruct m; cbn [N.b2n]; [change (N.div2 1) with 0|change (N.div2 0) with 0]; now rewrite N.lxor_0_r. }
  rewrite Ho, Hd. unfold crc_step. fold t. rewrite crc_bit_eq, N.lxor_comm, bits_of_lxor.
  assert (E : add_front (bits_of 31 (N.div2 t)) rest = add_front (bits_of 32 (N.div2 t)) rest).
  { rewrite (bits_of_snoc 31). rewrite testbit_small.
    - symmetry. apply add_front_false.
    - rewrite N.div2_div. assert (t < 2 ^ 32).
      { apply lxor_lt; [easy|]. destruct m; cbn; lia. }
      change (2 ^ N.of_nat 31) with 2147483648. change (2 ^ 32) with 4294967296 in *. lia. }
  rewrite E. destruct (N.odd t).
  - rewrite <- bits_POLY. now rewrite add_front_assoc by now rewrite !bits_of_length.
  - change (bits_of 32 0) with (repeat false 32).
    now rewrite <- add_front_assoc, add_front_zero by now rewrite bits_of_length.
Qed.

Lemma crc_step_bound s m : s < 4294967296 -> crc_step s m < 4294967296.
Proof.
  intro H. apply crc_bit_bound. apply (lxor_lt _ _ 32); [easy|]. destruct m; cbn; lia.
Qed.

Lemma steps_division ms : forall s, s < 4294967296 ->
  long_division (length ms) (add_front (bits_of 32 s) (ms ++ repeat false 32)) = bits_of 32 (fold_left crc_step ms s).
Proof.
  induction ms as [|m ms IH]; intros s H.
  - cbn [length long_division fold_left app]. change (repeat false 32) with (bits_of 32 0).
    now rewrite <- bits_of_lxor, N.lxor_0_r.
  - cbn [length app fold_left]. rewrite step_division, IH; try easy.
    + now apply crc_step_bound.
    + rewrite app_length, repeat_length. lia.
Qed.

Lemma crc_byte_steps s b : crc_byte s b = fold_left crc_step (byte_bits b) s.
Proof.
  unfold crc_byte, byte_bits. rewrite crc_bits8_iter.
  assert (G : forall k s x, x < 2 ^ N.of_nat k -> iter_bit k (N.lxor s x) = fold_left crc_step (bits_of k x) s).
  { clear. induction k; intros s x Hx.
    - cbn in *. replace x with 0 by lia. now rewrite N.lxor_0_r.
    - rewrite bits_of_S. cbn [iter_bit fold_left]. rewrite <- IHk.
      + f_equal. unfold crc_step. rewrite (N.div2_odd x) at 1.
        replace (2 * N.div2 x + N.b2n (N.odd x)) with (N.lxor (N.b2n (N.odd x)) (2 * N.div2 x)).
        * rewrite <- N.lxor_assoc, crc_bit_linear, crc_bit_double. reflexivity.
        * rewrite N.add_comm. symmetry. apply N.add_nocarry_lxor.
          apply N.bits_inj. intro i. rewrite N.land_spec, N.bits_0.
          destruct (N.eq_dec i 0) as [->|Hi].
          { rewrite N.testbit_even_0. apply andb_false_r. }
          { replace (N.testbit (N.b2n (N.odd x)) i) with false; [easy|].
            destruct (N.odd x); cbn [N.b2n]; [|now rewrite N.bits_0].
            symmetry. apply N.bits_above_log2. cbn. lia. }
      + rewrite N.div2_div. rewrite Nat2N.inj_succ, N.pow_succ_r' in Hx. apply N.div_lt_upper_bound; lia. }
  apply G. apply b2n_bound.
Qed.
Lemma hasher_steps l : forall s, hasher_update s l = fold_left crc_step (message_bits l) s.
Proof.
  induction l as [|b l IH]; intro s; [reflexivity|].
  unfold message_bits. cbn [map concat]. rewrite fold_left_app, <- crc_byte_steps. apply IH.
Qed.

Lemma bits_not s : map negb (bits_of 32 s) = bits_of 32 (N.lxor s 0xFFFFFFFF).
Proof.
  rewrite bits_of_lxor. change (bits_of 32 0xFFFFFFFF) with (repeat true 32).
  rewrite add_front_comm by now rewrite bits_of_length.
  generalize (bits_of_length 32 s). generalize (bits_of 32 s). generalize 32%nat.
  induction n; intros [|x l] H; cbn in *; try discriminate; [easy|].
  rewrite <- IHn by lia. now destruct x.
Qed.

Theorem crc32_is_spec l : crc32 l = crc32_spec l.
Proof.
  unfold crc32_spec. change ones32 with (bits_of 32 0xFFFFFFFF).
  rewrite steps_division by reflexivity. rewrite <- hasher_steps, bits_not.
  change (hasher_update 4294967295 l) with (hasher_update hasher_new l).
  rewrite of_bits_of; [reflexivity|]. exact (crc32_bound l).
Qed.
