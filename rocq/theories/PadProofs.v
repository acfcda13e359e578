(** Bytes that follow an archive do not matter, as long as the end record is found. *)
From Verif Require Import Base SpecFormat SpecCrc SpecUtf8 SpecArchive SpecRead SpecWrite SpecStrict SpecExact SpecTrouble SpecPad ZString ZDate Headers ExtraField
  Entry IO Locator Reader EntryReader Writer BaseFacts HeadersFacts IOFacts ReaderFacts RoundTrip EntryProofs ReadProofs StrictProofs AcceptProofs ExactProofs TroubleProofs CloseFacts
  Zip64Proofs ArchiveProofs RecognizeProofs RecordFacts.
From Verif Require ChainFacts.

Lemma past_app n (a b : bytes) : n <= len a -> past n (a ++ b) = past n a ++ b.
Proof. intro H. rewrite !past_drop. now apply drop_app_le. Qed.
Lemma upto_app n (a b : bytes) : n <= len a -> upto n (a ++ b) = upto n a.
Proof. intro H. rewrite !upto_take. now apply take_app_le. Qed.
Lemma nums_more ks l vs m t : nums ks l = Some (vs, m) -> nums ks (l ++ t) = Some (vs, m ++ t).
Proof.
  intro H. apply nums_fs in H as (L & -> & W). rewrite <- app_assoc. eapply nums_at; [reflexivity|exact W| |].
  - revert vs L W. induction ks as [|k ks IH]; intros [|v vs] L W; try discriminate L; [reflexivity|]. cbn. f_equal. apply IH; [now injection L|now inversion W].
  - revert vs L W. induction ks as [|k ks IH]; intros [|v vs] L W; try discriminate L; [reflexivity|]. cbn. f_equal. apply IH; [now injection L|now inversion W].
Qed.
Lemma past_left n l : past n l <> [] -> n <= len l.
Proof. intro H. destruct (N.le_gt_cases n (len l)) as [|G]; [easy|]. exfalso. apply H. rewrite past_drop. apply drop_all. lia. Qed.
Lemma row_more l r m t : read_row l r m -> m <> [] -> read_row (l ++ t) r (m ++ t).
Proof.
  intros R NE. destruct R as [made needed flags method time date crc cs us nl xl cl disk ia ea off m xs Nu S].
  pose proof (past_left _ _ NE) as C3.
  assert (C2 : xl <= len (past nl m)).
  { apply past_left. intro E. apply NE. rewrite E, past_drop. now rewrite drop_nil. }
  assert (C1 : nl <= len m).
  { apply past_left. intro E. apply NE. rewrite E, !past_drop. now rewrite !drop_nil. }
  apply (nums_more _ _ _ _ t) in Nu.
  assert (P1 : past nl (m ++ t) = past nl m ++ t) by now apply past_app.
  assert (P2 : past xl (past nl (m ++ t)) = past xl (past nl m) ++ t) by (rewrite P1; now apply past_app).
  assert (P3 : past cl (past xl (past nl (m ++ t))) = past cl (past xl (past nl m)) ++ t) by (rewrite P2; now apply past_app).
  assert (S' : some_fields (upto xl (past nl (m ++ t))) xs) by (rewrite P1, upto_app by easy; exact S).
  pose proof (row_here _ _ _ _ _ _ _ _ _ _ _ _ _ _ _ _ _ _ _ Nu S') as H. rewrite P3, P2, (upto_app nl), (upto_app cl) in H by easy. exact H.
Qed.
Lemma rows_end l rs : rows l rs -> exists e, rows_to l rs e.
Proof. induction 1 as [l|l r m rs R _ [e IH]]; [exists l; constructor|]. exists e. now apply (rt_more l r m). Qed.
Lemma rows_to_long l rs e : rows_to l rs e -> len e <= len l.
Proof. induction 1 as [l|l r m rs e R _ IH]; [lia|]. apply row_long in R. lia. Qed.
Lemma rows_to_one l rs e : rows_to l rs e -> forall e', rows_to l rs e' -> e = e'.
Proof.
  induction 1 as [l|l r m rs e R _ IH]; intros e' H; inversion H as [|? ? m' ? ? R' H']; subst; [reflexivity|].
  destruct (row_unique _ _ _ R _ _ R') as [_ <-]. now apply IH.
Qed.
Lemma rows_more l rs e t : rows_to l rs e -> e <> [] -> rows (l ++ t) rs.
Proof.
  induction 1 as [l|l r m rs e R T IH]; intro NE; [constructor|]. econstructor; [apply row_more; [exact R|]|exact (IH NE)].
  intros ->. apply rows_to_long in T. destruct e; [easy|]. unfold len in T. cbn in T. lia.
Qed.

(** what is told of an archive is told of it with [t] behind it *)
Lemma found_more sig d t q : found_at sig d q -> found_at sig (d ++ t) q.
Proof. intros (a & b & -> & L). exists a, (b ++ t). rewrite <- !app_assoc. now split. Qed.
Lemma found_less sig d t q : q + len sig <= len d -> found_at sig (d ++ t) q -> found_at sig d q.
Proof.
  intros L (a & b & E & A). exists a, (drop (q + len sig) d).
  assert (T : take (q + len sig) (d ++ t) = a ++ sig).
  { rewrite E, app_assoc. rewrite take_app_le by (rewrite len_app; lia). apply take_all. rewrite len_app. lia. }
  split; [|exact A]. rewrite app_assoc, <- T, take_app_le by lia. symmetry. apply take_drop.
Qed.
Lemma says_more d x rs t : says d x rs -> orderly d -> no_new_end d t -> says (d ++ t) x rs.
Proof.
  intros S O NE. destruct (O x rs S) as [OC OR]. destruct S as [(A & d1 & d2 & n1 & n2 & size & off & cl & rest & N & CM & LO) [R CT]].
  pose proof (nums_long _ _ _ _ N) as L. change (widths_of _) with 22 in L. rewrite past_drop, len_drop in L.
  assert (AT : n_at x + 22 <= len d) by lia.
  assert (CL : cl <= len rest).
  { apply nums_fs in N as (_ & N & W). 
    assert (V : value (upto 2 (past (n_at x + 20) d)) = cl).
    { replace (past (n_at x + 20) d) with (past 20 (past (n_at x) d)) by (rewrite past_past; f_equal; lia). rewrite N.
      unfold record. cbn [List.combine map concat fst snd]. rewrite !app_nil_r.
      rewrite <- !app_assoc. rewrite upto_take, past_drop, value_from.
      do 7 (apply Forall_inv_tail in W). apply Forall_inv in W. cbn [snd fst] in W. unfold in_width in W. cbn [fst snd] in W.
      rewrite !app_assoc. rewrite <- (app_assoc _ (le 2 cl)). rewrite drop_app_exact by (rewrite !len_app, !len_le; reflexivity).
      rewrite take_app_exact by (rewrite len_le; reflexivity). rewrite le_to_le, from_to_le. apply N.mod_small. exact W. }
    rewrite V in OC. lia. }
  split; [split|split; [|exact CT]].
  - intros q Q. now apply A, NE.
  - exists d1, d2, n1, n2, size, off, cl, (rest ++ t). rewrite past_app by lia. split; [now apply nums_more|]. split; [rewrite upto_app by lia; exact CM|].
    destruct (n_locator x) as [lo|].
    + destruct LO as (G & ldisk & disks & more & zsize & mb & nd & z1 & z2 & zn1 & zn2 & zsz & zoff & end64 & N1 & N2 & LO). split; [exact G|].
      exists ldisk, disks, (more ++ t), zsize, mb, nd, z1, z2, zn1, zn2, zsz, zoff, (end64 ++ t).
      split; [rewrite past_app by lia; now apply nums_more|]. split; [|exact LO]. rewrite past_app; [now apply nums_more|].
      apply past_left. intro E. rewrite E in N2. discriminate N2.
    + destruct LO as (LO & REST). split; [|exact REST]. intros G Q. apply (LO G). apply (found_less _ d t); [|exact Q]. rewrite len_le. lia.
  - destruct (rows_end _ _ R) as (e & RE). destruct (OR e RE) as [-> |NEmp]; [constructor|].
    rewrite past_app; [now apply (rows_more _ _ e)|]. apply past_left. intro E. apply rows_to_long in RE. rewrite E in RE. destruct e; [easy|].
    unfold len in RE. cbn in RE. lia.
Qed.

Lemma rows_tell_one : forall rs l es es', rows l rs -> Forall2 tells rs es -> Forall2 tells rs es' -> es = es'.
Proof.
  induction rs as [|r rs IH]; intros l es es' R F F'; inversion F; inversion F'; subst; [reflexivity|]. inversion R as [|? ? m ? RR RS]; subst.
  f_equal; [|now apply (IH m)].
  pose proof (record_taken {| overflow_checks := false; entry_mem_size := 0 |} l 0 r m) as T. change (past 0 l) with l in T.
  match goal with A : tells r ?e, B : tells r ?e' |- _ => destruct (T e RR A) as (p1 & T1 & _); destruct (T e' RR B) as (p2 & T2 & _) end.
  rewrite T1 in T2. now injection T2.
Qed.
Lemma reports_one d x rs f f' : says d x rs -> reports x rs f -> reports x rs f' -> f = f'.
Proof.
  intros (_ & R & _) (F & Z & C) (F' & Z' & C'). destruct f as [es z c], f' as [es' z' c']. cbn [f_entries f_zip64 f_comment] in *.
  rewrite (rows_tell_one rs _ es es' R F F'), (comment_unique _ _ _ C C'). now subst.
Qed.
Lemma padded cfg d f t s a : fst (file cfg (cursor d)) = Ok f -> orderly d -> no_new_end d t ->
  found_at (le 4 0x06054b50) d a -> (forall q, found_at (le 4 0x06054b50) d q -> q <= a) -> s_data s = d ++ t -> nofail (s_sched s) ->
  fst (file cfg s) = if len d + len t <=? a + 67456 then Ok f else Err UnableToLocateEOCDR.
Proof.
  intros F O NE FA LA SD NF. destruct (file_reads cfg (cursor d) f F) as (x & rs & S & R). cbn [cursor s_data] in S.
  assert (XA : n_at x = a).
  { pose proof S as [E _]. pose proof (LA _ (ends_found _ _ E)). destruct E as [E _]. specialize (E a FA). lia. }
  pose proof (says_more d x rs t S O NE) as S'.
  destruct (N.leb_spec (len d + len t) (a + 67456)) as [L|L].
  - destruct (proj1 (opening_works cfg (cursor d) ltac:(constructor)) (ex_intro _ f F)) as (x1 & rs1 & S1 & (_ & _ & OV) & CAP & GOOD).
    cbn [cursor s_data] in S1. destruct (says_unique _ _ _ _ _ S S1) as [<- <-].
    assert (OP : openable cfg (s_data s)).
    { rewrite SD. exists x, rs. split; [exact S'|]. split; [|now split]. split; [exact (proj1 S')|]. split; [|exact OV]. rewrite len_app, XA. exact L. }
    apply (opening_works cfg s NF) in OP as (f' & F'). rewrite F'. f_equal.
    destruct (file_reads cfg s f' F') as (x2 & rs2 & S2 & R2). rewrite SD in S2. destruct (says_unique _ _ _ _ _ S' S2) as [<- <-].
    symmetry. exact (reports_one d x rs f f' S R R2).
  - change (Err UnableToLocateEOCDR) with (@failed zfile (Gives UnableToLocateEOCDR)). apply (opening_fails cfg s _ NF). rewrite SD.
    apply of_end, ef_none. intros q Q. apply NE, LA in Q. rewrite len_app. unfold reach. lia.
Qed.

(** entries that lie in front of the padding read as before *)
Lemma padded_entry cd f i s d t e : s_data s = d ++ t -> nofail (s_sched s) -> entry_at f i = Some e ->
  st_file_offset e + 30 <= len d -> data_start d (st_file_offset e) + en_compressed_size (st_entry e) <= len d ->
  read_entry cd f i s = read_entry cd f i (cursor d).
Proof.
  intros SD NF E L1 L2. symmetry. apply (content_region cd f i (cursor d) s e ltac:(constructor) NF E); cbn [cursor s_data]; rewrite SD.
  all: intros j J1 J2; rewrite nth_error_app1; [reflexivity|unfold len in *; lia].
Qed.

(** ** Archives this crate wrote *)
Lemma member_end a tail r m : len (a_name a) < 0x10000 -> len (spec_extras (a_extras a)) < 0x10000 -> len (a_comment a) < 0x10000 -> member_ok a ->
  read_row (member_record a ++ tail) r m -> m = tail.
Proof.
  intros LN LX LC MO R. destruct R as [made needed flags method time date crc cs us nl xl cl disk ia ea off m xs Nu S].
  unfold member_record in Nu. rewrite <- !app_assoc in Nu.
  assert (P : nl = len (a_name a) /\ xl = len (spec_extras (a_extras a)) /\ cl = len (a_comment a) /\ m = a_name a ++ spec_extras (a_extras a) ++ a_comment a ++ tail).
  { unfold member_ok in MO. destruct MO as (M1 & M2 & M3 & M4 & M5 & M6 & M7 & M8 & M9 & M10 & M11 & M12 & _).
    assert (Q : nums [4; 2; 2; 2; 2; 2; 2; 4; 4; 4; 2; 2; 2; 2; 2; 4; 4]%nat
      (central_header (a_made_by a) (a_needed a) (a_flags a) (compression_to (a_method a)) (a_time a) (a_date a) (a_crc a)
      (kept (a_c64 a) 0xFFFFFFFF (a_csize a)) (kept (a_u64 a) 0xFFFFFFFF (a_usize a))
      (len (a_name a)) (len (spec_extras (a_extras a))) (len (a_comment a))
      (kept (a_d64 a) 0xFFFF (a_disk a)) (a_iattr a) (a_eattr a) (kept (a_o64 a) 0xFFFFFFFF (a_offset a))
      ++ a_name a ++ spec_extras (a_extras a) ++ a_comment a ++ tail) = Some ([0x02014b50; a_made_by a; a_needed a; a_flags a; compression_to (a_method a); a_time a; a_date a; a_crc a;
      kept (a_c64 a) 0xFFFFFFFF (a_csize a); kept (a_u64 a) 0xFFFFFFFF (a_usize a);
      len (a_name a); len (spec_extras (a_extras a)); len (a_comment a);
      kept (a_d64 a) 0xFFFF (a_disk a); a_iattr a; a_eattr a; kept (a_o64 a) 0xFFFFFFFF (a_offset a)], a_name a ++ spec_extras (a_extras a) ++ a_comment a ++ tail)).
    { eapply nums_at; [unfold central_header; reflexivity| |reflexivity|reflexivity]. unfold fits in *.
      assert (compression_to (a_method a) < 0x10000) by (destruct (a_method a); reflexivity).
      assert (kept (a_c64 a) 0xFFFFFFFF (a_csize a) < 0x100000000) by (unfold kept; destruct (a_c64 a); [reflexivity|assumption]).
      assert (kept (a_u64 a) 0xFFFFFFFF (a_usize a) < 0x100000000) by (unfold kept; destruct (a_u64 a); [reflexivity|assumption]).
      assert (kept (a_o64 a) 0xFFFFFFFF (a_offset a) < 0x100000000) by (unfold kept; destruct (a_o64 a); [reflexivity|assumption]).
      assert (kept (a_d64 a) 0xFFFF (a_disk a) < 0x10000) by (unfold kept; destruct (a_d64 a); [reflexivity|assumption]).
      widths. }
    rewrite Q in Nu. injection Nu. intros; subst. repeat split. }
  destruct P as (-> & -> & -> & ->). rewrite !past_drop. rewrite drop_app_exact by reflexivity. rewrite drop_app_exact by reflexivity. now apply drop_app_exact.
Qed.
Lemma members_end : forall l tail rs e, Forall member_ok l -> tail <> [] -> rows_to (members l ++ tail) rs e -> len rs <= len l -> e <> [].
Proof.
  induction l as [|a l IH]; intros tail rs e MO NE R L.
  - destruct rs as [|r rs]; [|unfold len in L; cbn in L; lia]. inversion R; subst. unfold members. exact NE.
  - inversion R as [|? r m rs' ? RR RS]; subst.
    + intro E. apply NE. unfold members in E. apply app_eq_nil in E. apply E.
    + inversion MO as [|? ? A B]; subst. unfold members in RR. cbn [map concat] in RR. rewrite <- app_assoc in RR.
      pose proof A as A'. unfold member_ok in A'. destruct A' as (_ & _ & _ & _ & _ & _ & _ & _ & _ & _ & _ & _ & _ & _ & L1 & L2 & L3 & _).
      apply member_end in RR; [|assumption..]. subst m. apply (IH tail rs' e B NE RS). unfold len in *. cbn [length] in L. lia.
Qed.
Lemma end_row d1 d2 n1 n2 size off cl c : d1 < 0x10000 -> d2 < 0x10000 -> n1 < 0x10000 -> n2 < 0x10000 -> size < 0x100000000 -> off < 0x100000000 -> cl < 0x10000 ->
  nums [4; 2; 2; 2; 2; 4; 4; 2]%nat (end_record d1 d2 n1 n2 size off cl ++ c) = Some ([0x06054b50; d1; d2; n1; n2; size; off; cl], c).
Proof. intros. eapply nums_at; [unfold end_record; reflexivity| |reflexivity|reflexivity]. widths. Qed.
Lemma locator_row k lo n c : k < 0x100000000 -> lo < 0x10000000000000000 -> n < 0x100000000 ->
  nums [4; 4; 8; 4]%nat (zip64_end_locator k lo n ++ c) = Some ([0x07064b50; k; lo; n], c).
Proof. intros. eapply nums_at; [unfold zip64_end_locator; reflexivity| |reflexivity|reflexivity]. widths. Qed.
Lemma end64_row n size off c : n < 0x10000000000000000 -> size < 0x10000000000000000 -> off < 0x10000000000000000 ->
  nums [8; 2; 2; 4; 4; 8; 8; 8; 8]%nat (past 4 (zip64_end 44 0x033F 46 0 0 n n size off ++ c)) = Some ([44; 0x033F; 46; 0; 0; n; n; size; off], c).
Proof.
  intros. assert (P : past 4 (zip64_end 44 0x033F 46 0 0 n n size off ++ c) =
    record [(8%nat, 44); (2%nat, 0x033F); (2%nat, 46); (4%nat, 0); (4%nat, 0); (8%nat, n); (8%nat, n); (8%nat, size); (8%nat, off)] ++ c) by reflexivity.
  rewrite P. eapply nums_at; [reflexivity| |reflexivity|reflexivity]. widths.
Qed.
Lemma members_count ms : 46 * len ms <= len (members ms).
Proof.
  unfold members. induction ms as [|a ms IH]; [cbn; lia|]. cbn [map concat]. rewrite len_app.
  assert (46 <= len (member_record a)) by (unfold member_record; rewrite len_app; change (len (central_header _ _ _ _ _ _ _ _ _ _ _ _ _ _ _ _)) with 46; lia).
  unfold len in *. cbn [length]. lia.
Qed.
Lemma drop_in (a b : bytes) n k : n = len a + k -> drop n (a ++ b) = drop k b.
Proof. intros ->. rewrite drop_app_ge by lia. f_equal. lia. Qed.
Lemma written_ending d z body ms c x : d = body ++ members ms ++ archive_end z (len ms) (len (members ms)) (len body) c ->
  (is_over (len body) = true -> z = true) -> end_clear z c d -> len d < 0x10000000000000000 -> ends d x ->
  n_at x = len d - 22 - len c /\ n_offset x = len body /\ n_count x = len (listed z ms) /\
  n_locator x = (if z then Some (len body + len (members ms)) else None) /\
  n_at x = len body + len (members ms) + (if z then 76 else 0) /\ value (upto 2 (past (n_at x + 20) d)) = len c.
Proof.
  intros D FA (LC & C1 & C2) LD EN.
  destruct (end_found z (len ms) (len (members ms)) (len body) c (body ++ members ms)) as [FD LB]. rewrite <- app_assoc, <- D in FD, LB.
  assert (AT : n_at x = len d - 22 - len c).
  { pose proof (proj1 EN _ FD). specialize (C1 _ (ends_found _ _ EN)). lia. }
  set (z64 := if z then zip64_end 44 0x033F 46 0 0 (len ms) (len ms) (len (members ms)) (len body) ++ zip64_end_locator 0 (len body + len (members ms)) 1 else []) in *.
  set (en := end_record 0 0 (N.min (len ms) 0xFFFF) (N.min (len ms) 0xFFFF) (N.min (len (members ms)) 0xFFFFFFFF) (N.min (len body) 0xFFFFFFFF) (len c)) in *.
  assert (D' : d = body ++ members ms ++ z64 ++ en ++ c).
  { rewrite D. unfold archive_end. rewrite (N.mod_small (len c)) by lia. reflexivity. }
  assert (LE : len en = 22) by reflexivity.
  assert (LZ : len z64 = if z then 76 else 0) by (unfold z64; destruct z; reflexivity).
  assert (LL : len d = len body + len (members ms) + len z64 + 22 + len c) by (rewrite D', !len_app, LE; lia).
  assert (PE : past (n_at x) d = en ++ c).
  { rewrite past_drop, D' at 1. rewrite (drop_in body _ _ (len (members ms) + len z64)) by lia. rewrite (drop_in _ _ _ (len z64)) by lia.
    now apply drop_app_exact. }
  pose proof (members_count ms) as MC.
  assert (OF : n_offset x = len body /\ n_count x = len (listed z ms) /\ n_locator x = if z then Some (len body + len (members ms)) else None).
  { destruct EN as (A & d1 & d2 & n1 & n2 & size & off & cl & rest & N & CM & LO). rewrite PE in N. unfold en in N.
    rewrite end_row in N by lia. injection N; intros; subst rest cl off size n2 n1 d2 d1.
    destruct z; cbn [listed].
    - assert (PL : past (n_at x - 20) d = zip64_end_locator 0 (len body + len (members ms)) 1 ++ en ++ c).
      { rewrite past_drop, D'. rewrite (drop_in body _ _ (len (members ms) + 56)) by lia. rewrite (drop_in _ _ _ 56) by lia. unfold z64. rewrite <- app_assoc.
        now apply drop_app_exact. }
      destruct (n_locator x) as [lo|].
      + destruct LO as (_ & ldisk & disks & more & zsize & mb & nd & z1 & z2 & zn1 & zn2 & zsz & zoff & end64 & N1 & N2 & _ & _ & NC & NO).
        rewrite PL, locator_row in N1 by lia. injection N1; intros; subst lo.
        assert (PZ : past ((len body + len (members ms) + 4) mod 0x10000000000000000) d = past 4 (z64 ++ en ++ c)).
        { rewrite N.mod_small by lia. rewrite !past_drop, D'. rewrite (drop_in body _ _ (len (members ms) + 4)) by lia. now rewrite (drop_in _ _ _ 4) by lia. }
        rewrite PZ in N2. unfold z64 in N2. rewrite <- app_assoc in N2. rewrite end64_row in N2 by lia. injection N2; intros; subst end64 zoff zsz zn2 zn1.
        rewrite NC, NO. unfold chosen. destruct (N.eqb_spec (N.min (len body) 0xFFFFFFFF) 0xFFFFFFFF), (N.eqb_spec (N.min (len ms) 0xFFFF) 0xFFFF);
          (split; [lia|split; [lia|reflexivity]]).
      + exfalso. destruct LO as (LO & _). apply LO; [lia|]. apply signature_at; [reflexivity|]. rewrite <- past_drop, PL. split; [rewrite len_app; change (len (zip64_end_locator _ _ _)) with 20; lia|].
        reflexivity.
    - destruct (n_locator x) as [lo|].
      + exfalso. destruct LO as (G & ldisk & disks & more & zsize & mb & nd & z1 & z2 & zn1 & zn2 & zsz & zoff & end64 & N1 & _).
        apply (C2 eq_refl (n_at x - 20)); [|lia]. apply signature_at; [reflexivity|]. rewrite <- past_drop. split.
        * apply nums_long in N1. rewrite N1. change (widths_of _) with 20. lia.
        * symmetry. exact (nums_head 4 _ _ _ _ _ N1).
      + destruct LO as (_ & _ & _ & -> & ->). rewrite len_take. assert (NOV : is_over (len body) = false) by (destruct (is_over (len body)); [now specialize (FA eq_refl)|reflexivity]).
        apply is_over_false in NOV. split; [lia|]. split; [lia|reflexivity]. }
  destruct OF as (OF & OC & OL). split; [exact AT|]. split; [exact OF|]. split; [exact OC|]. split; [exact OL|]. split; [lia|].
  replace (past (n_at x + 20) d) with (past 20 (past (n_at x) d)) by (rewrite past_past; f_equal; lia). rewrite PE.
  assert (P : upto 2 (past 20 (en ++ c)) = le 2 (len c)) by reflexivity. rewrite P, value_from, le_to_le, from_to_le. apply N.mod_small. change (256 ^ N.of_nat 2) with 65536. lia.
Qed.
Lemma written_orderly d z body ms c : d = body ++ members ms ++ archive_end z (len ms) (len (members ms)) (len body) c ->
  Forall member_ok (listed z ms) -> (is_over (len body) = true -> z = true) -> end_clear z c d -> len d < 0x10000000000000000 -> orderly d.
Proof.
  intros D MO FA EC LD x rs S. destruct (written_ending d z body ms c x D FA EC LD (proj1 S)) as (AT & OF & OC & _ & _ & V).
  destruct (end_found z (len ms) (len (members ms)) (len body) c (body ++ members ms)) as [_ LB]. rewrite <- app_assoc, <- D in LB.
  split; [rewrite V; lia|]. intros e R. right. rewrite OF in R.
  assert (PB : past (len body) d = members (listed z ms) ++ (if z then [] else members (drop 65535 ms)) ++ archive_end z (len ms) (len (members ms)) (len body) c).
  { rewrite past_drop, D, drop_app_exact by reflexivity. destruct z; cbn [listed]; [reflexivity|]. rewrite (members_split 65535 ms) at 1. now rewrite <- app_assoc. }
  rewrite PB in R. apply (members_end (listed z ms) _ rs e MO) in R; [exact R| |].
  - intro E. apply (f_equal len) in E. unfold archive_end in E. rewrite !len_app, len_end in E. change (len (@nil byte)) with 0 in E. lia.
  - rewrite <- OC. destruct S as [_ [_ ->]]. lia.
Qed.

Lemma start_more d t p : p + 30 <= len d -> data_start (d ++ t) p = data_start d p.
Proof. intro L. unfold data_start, u16_at. rewrite !app_nth1 by (unfold len in L; lia). reflexivity. Qed.
Lemma as_written_more d t it st : as_written d it st -> as_written (d ++ t) it st.
Proof.
  unfold as_written. cbv zeta. intros (H1 & H2 & H3 & H4 & H5 & H6 & H7 & H8 & H9 & H10 & H11 & (L1 & L2 & L3) & after & E).
  rewrite <- H11 in *. repeat (split; [assumption|]). split; [reflexivity|]. rewrite start_more by exact L2. split.
  - split; [now apply found_more|]. rewrite start_more by exact L2. split; [rewrite len_app; lia|exact L3].
  - set (k := N.to_nat (data_start d (st_file_offset st))) in *.
    destruct (Nat.le_gt_cases k (length d)) as [K|K].
    + exists (after ++ t). rewrite firstn_app, (proj2 (Nat.sub_0_le k (length d)) K), firstn_O, app_nil_r. rewrite E at 1. now rewrite <- !app_assoc.
    + assert (Z : i_data it = []).
      { apply (f_equal (@length byte)) in E. rewrite !app_length, firstn_all2 in E by lia. destruct (i_data it); [reflexivity|]. cbn [length] in E. lia. }
      rewrite Z. exists (skipn k (d ++ t)). cbn [app]. symmetry. apply firstn_skipn.
Qed.
Lemma shape_padded cd cfg s l t xs d z body its ms : codec_ok cd -> shape cd l xs d z body its ms ->
  unambiguous cd cfg l xs z d -> no_new_end d t -> s_data s = d ++ t -> nofail (s_sched s) ->
  if 22 + len (last_comment l) + len t <=? 67456 then
    exists f, fst (file cfg (cursor d)) = Ok f /\ fst (file cfg s) = Ok f /\ f_zip64 f = z /\ comment_reads_as (last_comment l) (f_comment f) /\
      Forall2 (fun x st => exists it, leaves cd (fst x) (snd x) it /\ as_written d it st /\ texts_kept it st) (succeeded false xs) (f_entries f) /\
      (forall i no64 o data, nth_error (succeeded false xs) (N.to_nat i) = Some (no64, o) -> holds cd o data ->
         (forall it, leaves cd no64 o it -> straight it) -> read_entry cd f i s = Ok data)
  else fst (file cfg s) = Err UnableToLocateEOCDR.
Proof.
  intros K SH U NE SD NF. destruct (ChainFacts.shape_back cd cfg (cursor d) l xs d z body its ms K SH U eq_refl ltac:(constructor)) as (f & F & _ & Z & C & F2 & _).
  pose proof U as (L & TM & SC & EC & MEM).
  destruct (listed_ok _ _ _ _ _ _ _ _ SH TM SC) as [MO LL].
  pose proof (written_orderly _ _ _ _ _ (sh_bytes _ _ _ _ _ _ _ _ SH) MO (fun X => proj1 (sh_far _ _ _ _ _ _ _ _ SH X)) EC L) as O.
  pose proof (end_found z (len ms) (len (members ms)) (len body) (last_comment l)
    (body ++ members ms)) as [FD LB]. rewrite <- app_assoc, <- (sh_bytes _ _ _ _ _ _ _ _ SH) in FD, LB.
  pose proof (padded cfg d f t s _ F O NE FD) as P. destruct EC as (LC & C1 & _).
  specialize (P ltac:(intros q Q; specialize (C1 q Q); lia) SD NF).
  destruct (N.leb_spec (22 + len (last_comment l) + len t) 67456) as [LE|GT].
  - rewrite (proj2 (N.leb_le _ _)) in P by lia. exists f. split; [exact F|]. split; [exact P|]. split; [exact Z|]. split; [exact C|]. split; [exact F2|].
    intros i no64 o data N1 HD ST.
    assert (E : exists st, entry_at f i = Some st /\ exists it, leaves cd no64 o it /\ as_written d it st).
    { unfold entry_at. revert F2 N1. generalize (N.to_nat i) as n. generalize (succeeded false xs) as ys, (f_entries f) as zs. clear.
      intros ys zs n F. revert n. induction F as [|x st ys1 zs1 (it & L & W & _) _ IH]; intros [|n] N; try discriminate.
      - cbn in N. injection N as ->. exists st. split; [reflexivity|]. now exists it.
      - cbn in N |- *. now apply IH. }
    destruct E as (st & E & it & LV & W). apply (as_written_more _ t) in W. pose proof (written_content cd no64 o it data _ st K LV HD (ST it LV) W) as Q.
    rewrite (read_entry_content cd f i s st); rewrite ?SD; [exact Q|exact NF|exact E|apply W].
  - rewrite (proj2 (N.leb_gt _ _)) in P by lia. exact P.
Qed.
Lemma written_padded cd cfg sched s l t : codec_ok cd -> Forall op_good l ->
  let '(xs, r, w) := run_archive cd sched l in
  let d := w_bytes w in
  r = Ok tt -> unambiguous cd cfg l xs (w_zip64 w) d -> no_new_end d t -> s_data s = d ++ t -> nofail (s_sched s) ->
  if 22 + len (last_comment l) + len t <=? 67456 then
    exists f, fst (file cfg (cursor d)) = Ok f /\ fst (file cfg s) = Ok f /\ f_zip64 f = w_zip64 w /\ comment_reads_as (last_comment l) (f_comment f) /\
      Forall2 (fun x st => exists it, leaves cd (fst x) (snd x) it /\ as_written d it st /\ texts_kept it st) (succeeded false xs) (f_entries f) /\
      (forall i no64 o data, nth_error (succeeded false xs) (N.to_nat i) = Some (no64, o) -> holds cd o data ->
         (forall it, leaves cd no64 o it -> straight it) -> read_entry cd f i s = Ok data)
  else fst (file cfg s) = Err UnableToLocateEOCDR.
Proof.
  intros K G. pose proof (archive_shape cd sched l (proj1 K) G) as H. destruct (run_archive cd sched l) as [[xs r] w]. cbv zeta in *.
  intros R U. destruct (H R (proj1 U)) as (its & ms & SH). exact (shape_padded _ _ _ _ _ _ _ _ _ _ _ K SH U).
Qed.

(** zeros are never part of a signature *)
Lemma zeros_fine d n : no_new_end d (repeat x00 n).
Proof.
  intros q (a & b & E & L). assert (LS : len (le 4 0x06054b50) = 4) by reflexivity.
  destruct (N.le_gt_cases (q + 4) (len d)) as [G|G].
  - apply (found_less _ d (repeat x00 n)); [rewrite LS; exact G|]. now exists a, b.
  - exfalso. assert (K : nth_error (d ++ repeat x00 n) (N.to_nat (q + 3)) = Some x06).
    { rewrite E, nth_error_app2 by (unfold len in L; lia). replace (N.to_nat (q + 3) - length a)%nat with 3%nat by (unfold len in L; lia). reflexivity. }
    rewrite nth_error_app2 in K by (unfold len in G; lia). apply nth_error_In, repeat_spec in K. discriminate K.
Qed.
