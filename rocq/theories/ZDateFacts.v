(** Date/time: the builder and the accessors in arithmetic form. *)
From Verif Require Import Base BaseFacts ZDate.

Lemma land_ones_mod x k : N.land x (2 ^ k - 1) = x mod 2 ^ k.
Proof. rewrite <- N.land_ones. f_equal. rewrite N.ones_equiv. lia. Qed.

(** [(x & ((2^w - 1) << s)) >> s] *)
Lemma field_get x s w : N.shiftr (N.land x (N.shiftl (N.ones w) s)) s = x / 2 ^ s mod 2 ^ w.
Proof.
  rewrite N.shiftr_land, N.shiftr_shiftl_l, N.sub_diag, N.shiftl_0_r by lia.
  now rewrite N.land_ones, N.shiftr_div_pow2.
Qed.
Lemma field_put v s w : N.land (N.shiftl v s) (N.shiftl (N.ones w) s) = (v mod 2 ^ w) * 2 ^ s.
Proof. rewrite <- N.shiftl_land, N.land_ones. apply N.shiftl_mul_pow2. Qed.

Lemma land_disjoint a b k : b < 2 ^ k -> N.land (a * 2 ^ k) b = 0.
Proof.
  intro H. rewrite <- N.shiftl_mul_pow2. apply N.bits_inj. intro i.
  rewrite N.land_spec, N.bits_0. destruct (N.lt_ge_cases i k).
  - now rewrite N.shiftl_spec_low.
  - replace (N.testbit b i) with false; [apply andb_false_r|]. symmetry. apply N.testbit_false.
    rewrite N.div_small; [reflexivity|]. eapply N.lt_le_trans; [exact H|]. apply N.pow_le_mono_r; lia.
Qed.
Lemma lor_disjoint a b k : b < 2 ^ k -> N.lor (a * 2 ^ k) b = a * 2 ^ k + b.
Proof.
  intro H. pose proof (land_disjoint a b k H) as D.
  rewrite N.add_nocarry_lxor by exact D. symmetry. now apply N.lxor_lor.
Qed.

Lemma lor_512 a b : b < 512 -> N.lor (a * 512) b = a * 512 + b.
Proof. apply (lor_disjoint a b 9). Qed.
Lemma lor_2048 a b : b < 2048 -> N.lor (a * 2048) b = a * 2048 + b.
Proof. apply (lor_disjoint a b 11). Qed.
Lemma lor_32 a b : b < 32 -> N.lor (a * 32) b = a * 32 + b.
Proof. apply (lor_disjoint a b 5). Qed.

(** accessors *)
Lemma zd_year_eq d : zd_year d = (Z.of_N (zd_date d / 512 mod 128) + 1980)%Z.
Proof. unfold zd_year. change 0xFE00 with (N.shiftl (N.ones 7) 9). rewrite field_get. change (2 ^ 9) with 512. change (2 ^ 7) with 128. lia. Qed.
Lemma zd_month_eq d : zd_month d = zd_date d / 32 mod 16.
Proof. unfold zd_month. change 0x1E0 with (N.shiftl (N.ones 4) 5). now rewrite field_get. Qed.
Lemma zd_day_eq d : zd_day d = zd_date d mod 32.
Proof. unfold zd_day. change 0x1F with (N.ones 5). now rewrite N.land_ones. Qed.
Lemma zd_hour_eq d : zd_hour d = zd_time d / 2048 mod 32.
Proof. unfold zd_hour. change 0xF800 with (N.shiftl (N.ones 5) 11). now rewrite field_get. Qed.
Lemma zd_minute_eq d : zd_minute d = zd_time d / 32 mod 64.
Proof. unfold zd_minute. change 0x7E0 with (N.shiftl (N.ones 6) 5). now rewrite field_get. Qed.
Lemma zd_second_eq d : zd_second d = zd_time d mod 32 * 2.
Proof. unfold zd_second. change 0x1F with (N.ones 5). now rewrite N.land_ones, N.shiftl_mul_pow2. Qed.

(** values OR-ed in by the setters *)
Lemma month_bits m : m < 134217728 -> N.land (as_u32 (N.shiftl m 5)) 0x1E0 = m mod 16 * 32.
Proof.
  intro H. unfold as_u32. rewrite N.mod_small.
  - change 0x1E0 with (N.shiftl (N.ones 4) 5). now rewrite field_put.
  - rewrite N.shiftl_mul_pow2. change (2 ^ 5) with 32. lia.
Qed.
Lemma day_bits x : N.land x 0x1F = x mod 32.
Proof. change 0x1F with (N.ones 5). now rewrite N.land_ones. Qed.
Lemma hour_bits x : x < 2097152 -> N.land (as_u32 (N.shiftl x 11)) 0xF800 = x mod 32 * 2048.
Proof.
  intro H. unfold as_u32. rewrite N.mod_small.
  - change 0xF800 with (N.shiftl (N.ones 5) 11). now rewrite field_put.
  - rewrite N.shiftl_mul_pow2. change (2 ^ 11) with 2048. lia.
Qed.
Lemma minute_bits x : x < 134217728 -> N.land (as_u32 (N.shiftl x 5)) 0x7E0 = x mod 64 * 32.
Proof.
  intro H. unfold as_u32. rewrite N.mod_small.
  - change 0x7E0 with (N.shiftl (N.ones 6) 5). now rewrite field_put.
  - rewrite N.shiftl_mul_pow2. change (2 ^ 5) with 32. lia.
Qed.
Lemma second_bits x : N.land (N.shiftr x 1) 0x1F = x / 2 mod 32.
Proof. change 0x1F with (N.ones 5). now rewrite N.land_ones, N.shiftr_div_pow2. Qed.

Definition year_bits (y : Z) : N := Z.to_N ((y - 1980) mod 128) * 512.

Lemma zland_mask z : Z.land z 0xFE00 = ((z / 512) mod 128 * 512)%Z.
Proof.
  change 0xFE00%Z with (Z.shiftl (Z.ones 7) 9).
  replace (z / 512)%Z with (Z.shiftr z 9) by (rewrite Z.shiftr_div_pow2 by lia; reflexivity).
  change 128%Z with (2 ^ 7)%Z. rewrite <- Z.land_ones by lia.
  replace (Z.land (Z.shiftr z 9) (Z.ones 7) * 512)%Z with (Z.shiftl (Z.land (Z.shiftr z 9) (Z.ones 7)) 9)
    by (rewrite Z.shiftl_mul_pow2 by lia; reflexivity).
  apply Z.bits_inj'. intros i Hi. rewrite Z.land_spec.
  destruct (Z.lt_ge_cases i 9).
  - rewrite !Z.shiftl_spec_low by lia. apply andb_false_r.
  - rewrite !Z.shiftl_spec by lia. rewrite Z.land_spec, Z.shiftr_spec by lia. do 2 f_equal. lia.
Qed.

(** for every i32 year *)
Lemma year_shifted k : Z.land (wrap_i32 (Z.shiftl k 9)) 0xFE00 = (k mod 128 * 512)%Z.
Proof.
  unfold wrap_i32. rewrite Z.shiftl_mul_pow2 by lia. change (2 ^ 9)%Z with 512%Z. rewrite zland_mask. f_equal.
  assert (A : ((k * 512 + 2147483648) mod 4294967296 = ((k + 4194304) mod 8388608) * 512)%Z).
  { replace (k * 512 + 2147483648)%Z with ((k + 4194304) * 512)%Z by lia.
    change 4294967296%Z with (8388608 * 512)%Z. now rewrite Z.mul_mod_distr_r by lia. }
  rewrite A. replace ((k + 4194304) mod 8388608 * 512 - 2147483648)%Z with (((k + 4194304) mod 8388608 - 4194304) * 512)%Z by lia.
  rewrite Z.div_mul by lia. lia.
Qed.

Lemma zb_year_any c d y : (-2147483648 <= y < 2147483648)%Z ->
  zb_year c d y = if overflow_checks c && (y <? -2147481668)%Z then Panic POverflow
    else Ok {| zd_date := N.lor (zd_date d) (year_bits y); zd_time := zd_time d |}.
Proof.
  intro Hy. unfold zb_year, isub1980, year_bits.
  destruct (Z.leb_spec (-2147483648) (y - 1980)) as [L|L].
  - replace (y <? -2147481668)%Z with false by lia. rewrite andb_false_r. cbn [rbind].
    rewrite year_shifted. do 3 f_equal. lia.
  - replace (y <? -2147481668)%Z with true by lia. rewrite andb_true_r. destruct (overflow_checks c); [reflexivity|]. cbn [rbind].
    rewrite year_shifted. do 3 f_equal. unfold wrap_i32.
    replace (((y - 1980 + 2147483648) mod 4294967296 - 2147483648) mod 128)%Z with ((y - 1980) mod 128)%Z by lia. lia.
Qed.

Lemma zb_year_eq c d y : (-2147481668 <= y < 2147483648)%Z ->
  zb_year c d y = Ok {| zd_date := N.lor (zd_date d) (year_bits y); zd_time := zd_time d |}.
Proof.
  intro Hy. rewrite zb_year_any by lia. replace (y <? -2147481668)%Z with false by lia. now rewrite andb_false_r.
Qed.

Definition build (c : config) (y : Z) (mo d h mi s : N) : res zdate :=
  let? x := zb_year c zdate_default y in
  Ok (zb_second (zb_minute (zb_hour (zb_day (zb_month x mo) d) h) mi) s).

Lemma build_eq c y mo d h mi s : (-2147481668 <= y < 2147483648)%Z ->
  mo < 134217728 -> h < 2097152 -> mi < 134217728 ->
  build c y mo d h mi s = Ok {| zd_date := year_bits y + mo mod 16 * 32 + d mod 32;
                                zd_time := h mod 32 * 2048 + mi mod 64 * 32 + s / 2 mod 32 |}.
Proof.
  intros Hy Hm Hh Hmi. unfold build. rewrite zb_year_eq by easy. cbn [rbind]. f_equal.
  unfold zb_second, zb_minute, zb_hour, zb_day, zb_month, zdate_default; cbn [zd_date zd_time].
  rewrite month_bits, day_bits, hour_bits, minute_bits, second_bits by easy.
  rewrite !N.lor_0_l. f_equal.
  - unfold year_bits. rewrite lor_512 by lia.
    replace (Z.to_N ((y - 1980) mod 128) * 512 + mo mod 16 * 32)
      with ((Z.to_N ((y - 1980) mod 128) * 16 + mo mod 16) * 32) by lia.
    apply lor_32. lia.
  - rewrite lor_2048 by lia.
    replace (h mod 32 * 2048 + mi mod 64 * 32) with ((h mod 32 * 64 + mi mod 64) * 32) by lia.
    apply lor_32. lia.
Qed.

Lemma build_components c y mo d h mi s :
  (1980 <= y <= 2107)%Z -> mo < 16 -> d < 32 -> h < 32 -> mi < 64 -> s < 64 ->
  exists x, build c y mo d h mi s = Ok x /\ zd_year x = y /\ zd_month x = mo /\ zd_day x = d /\
            zd_hour x = h /\ zd_minute x = mi /\ zd_second x = 2 * (s / 2) /\
            zd_date x < 65536 /\ zd_time x < 65536.
Proof.
  intros. rewrite build_eq by lia. eexists; split; [reflexivity|].
  rewrite zd_year_eq, zd_month_eq, zd_day_eq, zd_hour_eq, zd_minute_eq, zd_second_eq; cbn [zd_date zd_time].
  unfold year_bits. repeat split; lia.
Qed.

Lemma rebuild c x : zd_date x < 65536 -> zd_time x < 65536 ->
  build c (zd_year x) (zd_month x) (zd_day x) (zd_hour x) (zd_minute x) (zd_second x) = Ok x.
Proof.
  intros Hd Ht.
  rewrite zd_year_eq, zd_month_eq, zd_day_eq, zd_hour_eq, zd_minute_eq, zd_second_eq.
  rewrite build_eq by lia. f_equal. destruct x as [a b]; cbn [zd_date zd_time] in *. unfold year_bits. f_equal; lia.
Qed.

(** chrono *)
Lemma from_chrono_build c i :
  zd_from_chrono c i = build c (i_year i) (i_month i) (i_day i) (i_hour i) (i_minute i) (i_second i).
Proof. reflexivity. Qed.

Lemma chrono_roundtrip c i x :
  zd_from_chrono c i = Ok x ->
  (1980 <= i_year i <= 2107)%Z ->
  with_ymd_and_hms (i_year i) (i_month i) (i_day i) (i_hour i) (i_minute i) (i_second i) = Some i ->
  zd_as_chrono x = Some {| i_year := i_year i; i_month := i_month i; i_day := i_day i;
                           i_hour := i_hour i; i_minute := i_minute i; i_second := 2 * (i_second i / 2) |}.
Proof.
  intros H Hy V. unfold with_ymd_and_hms in V.
  match type of V with (if ?b then _ else _) = _ => destruct b eqn:E; [|discriminate] end.
  assert (Hd : days_in_month (i_year i) (i_month i) <= 31).
  { unfold days_in_month. destruct (i_month i =? 2); [destruct leap; lia|]. destruct orb; lia. }
  destruct (build_components c (i_year i) (i_month i) (i_day i) (i_hour i) (i_minute i) (i_second i))
    as (x' & B & Y & Mo & D & Ho & Mi & Se & _); try lia.
  rewrite from_chrono_build, B in H. injection H as <-.
  unfold zd_as_chrono. rewrite Y, Mo, D, Ho, Mi, Se. unfold with_ymd_and_hms.
  match goal with |- (if ?b then _ else _) = _ => replace b with true; [reflexivity|] end.
  symmetry. repeat (apply andb_prop in E; destruct E as [E ?]).
  repeat (apply andb_true_intro; split); try easy; lia.
Qed.

(** what the setters do to a builder that already holds a value *)
Lemma get_or x v s w : N.shiftr (N.land (N.lor x v) (N.shiftl (N.ones w) s)) s =
  N.lor (N.shiftr (N.land x (N.shiftl (N.ones w) s)) s) (N.shiftr (N.land v (N.shiftl (N.ones w) s)) s).
Proof. now rewrite N.land_lor_distr_l, N.shiftr_lor. Qed.
Lemma land_mask_0 x v m1 m2 : N.land m1 m2 = 0 -> N.land (N.lor x (N.land v m1)) m2 = N.land x m2.
Proof. intro H. now rewrite N.land_lor_distr_l, <- N.land_assoc, H, N.land_0_r, N.lor_0_r. Qed.

Lemma set_day_or d x : zd_day (zb_day d x) = N.lor (zd_day d) (x mod 32).
Proof.
  unfold zd_day, zb_day; cbn [zd_date]. rewrite N.land_lor_distr_l, !day_bits. f_equal. apply N.mod_mod. lia.
Qed.
Lemma set_month_or d x : x < 134217728 -> zd_month (zb_month d x) = N.lor (zd_month d) (x mod 16).
Proof.
  intro H. unfold zd_month, zb_month; cbn [zd_date]. rewrite month_bits by easy.
  change 0x1E0 with (N.shiftl (N.ones 4) 5). rewrite get_or. f_equal. rewrite field_get.
  change (2 ^ 5) with 32; change (2 ^ 4) with 16. lia.
Qed.
Lemma set_hour_or d x : x < 2097152 -> zd_hour (zb_hour d x) = N.lor (zd_hour d) (x mod 32).
Proof.
  intro H. unfold zd_hour, zb_hour; cbn [zd_time]. rewrite hour_bits by easy.
  change 0xF800 with (N.shiftl (N.ones 5) 11). rewrite get_or. f_equal. rewrite field_get.
  change (2 ^ 5) with 32; change (2 ^ 11) with 2048. lia.
Qed.
Lemma set_minute_or d x : x < 134217728 -> zd_minute (zb_minute d x) = N.lor (zd_minute d) (x mod 64).
Proof.
  intro H. unfold zd_minute, zb_minute; cbn [zd_time]. rewrite minute_bits by easy.
  change 0x7E0 with (N.shiftl (N.ones 6) 5). rewrite get_or. f_equal. rewrite field_get.
  change (2 ^ 5) with 32; change (2 ^ 6) with 64. lia.
Qed.
Lemma set_second_or d x : zd_second (zb_second d x) = 2 * N.lor (zd_second d / 2) (x / 2 mod 32).
Proof.
  unfold zd_second, zb_second; cbn [zd_time]. rewrite N.land_lor_distr_l, second_bits.
  replace (N.land (x / 2 mod 32) 0x1F) with (x / 2 mod 32) by (rewrite day_bits; lia).
  rewrite !N.shiftl_mul_pow2. change (2 ^ 1) with 2. rewrite N.div_mul by lia. lia.
Qed.
Lemma year_get v : N.shiftr (N.land (v mod 128 * 512) (N.shiftl (N.ones 7) 9)) 9 = v mod 128.
Proof. rewrite field_get. change (2 ^ 9) with 512; change (2 ^ 7) with 128. lia. Qed.
Lemma set_year_or c d y : (1980 <= y <= 2107)%Z ->
  exists d', zb_year c d y = Ok d' /\
    zd_year d' = (1980 + Z.of_N (N.lor (Z.to_N (zd_year d - 1980)) (Z.to_N (y - 1980))))%Z.
Proof.
  intro H. rewrite zb_year_eq by lia. eexists; split; [reflexivity|].
  unfold zd_year; cbn [zd_date]. unfold year_bits.
  replace (Z.to_N ((y - 1980) mod 128)) with (Z.to_N (y - 1980) mod 128) by lia.
  change 0xFE00 with (N.shiftl (N.ones 7) 9). rewrite get_or, year_get.
  replace (Z.to_N (y - 1980) mod 128) with (Z.to_N (y - 1980)) by lia.
  match goal with |- Z.of_N (N.lor ?a ?b + _) = (_ + Z.of_N (N.lor ?a' _))%Z => replace a' with a by lia end. lia.
Qed.

(** a setter leaves every other component alone *)
Lemma set_month_others d x : zd_year (zb_month d x) = zd_year d /\ zd_day (zb_month d x) = zd_day d /\ zd_time (zb_month d x) = zd_time d.
Proof. unfold zd_year, zd_day, zb_month; cbn [zd_date zd_time]. rewrite !land_mask_0 by reflexivity. easy. Qed.
Lemma set_day_others d x : zd_year (zb_day d x) = zd_year d /\ zd_month (zb_day d x) = zd_month d /\ zd_time (zb_day d x) = zd_time d.
Proof. unfold zd_year, zd_month, zb_day; cbn [zd_date zd_time]. rewrite !land_mask_0 by reflexivity. easy. Qed.
Lemma set_hour_others d x : zd_date (zb_hour d x) = zd_date d /\ zd_minute (zb_hour d x) = zd_minute d /\ zd_second (zb_hour d x) = zd_second d.
Proof. unfold zd_minute, zd_second, zb_hour; cbn [zd_date zd_time]. rewrite !land_mask_0 by reflexivity. easy. Qed.
Lemma set_minute_others d x : zd_date (zb_minute d x) = zd_date d /\ zd_hour (zb_minute d x) = zd_hour d /\ zd_second (zb_minute d x) = zd_second d.
Proof. unfold zd_hour, zd_second, zb_minute; cbn [zd_date zd_time]. rewrite !land_mask_0 by reflexivity. easy. Qed.
Lemma set_second_others d x : zd_date (zb_second d x) = zd_date d /\ zd_hour (zb_second d x) = zd_hour d /\ zd_minute (zb_second d x) = zd_minute d.
Proof. unfold zd_hour, zd_minute, zb_second; cbn [zd_date zd_time]. rewrite !land_mask_0 by reflexivity. easy. Qed.
Lemma set_year_others c d y d' : (1980 <= y <= 2107)%Z -> zb_year c d y = Ok d' ->
  zd_month d' = zd_month d /\ zd_day d' = zd_day d /\ zd_time d' = zd_time d.
Proof.
  intros H E. rewrite zb_year_eq in E by lia. okinv E. subst d'. unfold zd_month, zd_day; cbn [zd_date zd_time].
  replace (year_bits y) with (N.land (year_bits y) 0xFE00).
  - rewrite !land_mask_0 by reflexivity. easy.
  - unfold year_bits. rewrite <- (N.shiftl_mul_pow2 _ 9 : _ = _ * 512).
    change 0xFE00 with (N.shiftl (N.ones 7) 9). rewrite field_put, N.shiftl_mul_pow2. f_equal.
    change (2 ^ 7) with 128. lia.
Qed.

(** the calendar *)
Lemma leap_iff y : leap y = true <-> ((4 | y) /\ (~ (100 | y) \/ (400 | y)))%Z.
Proof.
  unfold leap. rewrite andb_true_iff, orb_true_iff, negb_true_iff, Z.eqb_neq, !Z.eqb_eq.
  now rewrite !Z.mod_divide by discriminate.
Qed.
Lemma calendar d i : zd_as_chrono d = Some i <->
  i = {| i_year := zd_year d; i_month := zd_month d; i_day := zd_day d; i_hour := zd_hour d; i_minute := zd_minute d; i_second := zd_second d |} /\
  (exists n, nth_error [0; 31; 28; 31; 30; 31; 30; 31; 31; 30; 31; 30; 31] (N.to_nat (zd_month d)) = Some n /\
     (1 <= zd_day d <= n \/ zd_month d = 2 /\ zd_day d = 29 /\ ((4 | zd_year d) /\ (~ (100 | zd_year d) \/ (400 | zd_year d)))%Z)) /\
  zd_hour d < 24 /\ zd_minute d < 60 /\ zd_second d < 60.
Proof.
  setoid_rewrite <- leap_iff. unfold zd_as_chrono, with_ymd_and_hms.
  set (y := zd_year d). generalize (zd_month d) (zd_day d) (zd_hour d) (zd_minute d) (zd_second d). intros mo da h mi s.
  assert (K : (1 <=? mo) && (mo <=? 12) && (1 <=? da) && (da <=? days_in_month y mo) = true <->
    exists n, nth_error [0; 31; 28; 31; 30; 31; 30; 31; 31; 30; 31; 30; 31] (N.to_nat mo) = Some n /\ (1 <= da <= n \/ mo = 2 /\ da = 29 /\ leap y = true)).
  { destruct (N.le_gt_cases mo 12) as [L|L].
    - assert (C : In mo [0; 1; 2; 3; 4; 5; 6; 7; 8; 9; 10; 11; 12]) by (cbn [In]; lia).
      cbn [In] in C. repeat destruct C as [<-|C]; try contradiction; cbn [N.to_nat Pos.to_nat Pos.iter_op nth_error Nat.add]; unfold days_in_month; cbn [N.eqb Pos.eqb orb];
        rewrite ?andb_true_iff, ?N.leb_le; (split; [intro H|intros (n & E & H); injection E as <-]).
      all: try (eexists; split; [reflexivity|]). all: destruct (leap y); lia.
    - split; [rewrite !andb_true_iff, !N.leb_le; lia|]. intros (n & E & _). exfalso. assert (X : nth_error [0; 31; 28; 31; 30; 31; 30; 31; 31; 30; 31; 30; 31] (N.to_nat mo) <> None) by congruence.
      apply nth_error_Some in X. cbn [length] in X. lia. }
  rewrite <- K. clear K. destruct ((1 <=? mo) && (mo <=? 12) && (1 <=? da) && (da <=? days_in_month y mo)); cbn [andb].
  - destruct (N.ltb_spec h 24), (N.ltb_spec mi 60), (N.ltb_spec s 60); cbn [andb]; split; try discriminate; try (intros (_ & _ & ? & ? & ?); lia).
    + intro X. injection X as <-. now repeat split.
    + now intros (-> & _).
  - split; [discriminate|]. now intros (_ & X & _).
Qed.
