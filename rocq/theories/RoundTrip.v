(** Reading back what was written. *)
From Verif Require Import Base BaseFacts Crc32 CrcFacts ZString ZDate Headers HeadersFacts ExtraField ExtraFieldFacts Entry IO IOFacts
  Reader EntryReader Writer SpecFormat SpecCrc SpecUtf8 SpecArchive SpecRead SpecWrite EntryProofs ReadProofs WriteProofs RecordFacts HistFacts CloseFacts.
Arguments N.add : simpl never.
Arguments N.sub : simpl never.

(** ** Where the data lies *)
Lemma nth_app_at {A} (b x : list A) k (z : A) n : n = len b + N.of_nat k -> nth (N.to_nat n) (b ++ x) z = nth k x z.
Proof. intros ->. rewrite app_nth2; [f_equal|]; unfold len; lia. Qed.
Lemma le2_value v : v < 0x10000 -> b2n (n2b v) + 256 * b2n (n2b (v / 256)) = v.
Proof.
  intro H. rewrite !b2n_n2b. rewrite (N.mod_small (v / 256)).
  - rewrite N.add_comm, <- N.div_mod by lia. reflexivity.
  - apply N.div_lt_upper_bound; lia.
Qed.
Lemma u16_first b v rest n : v < 0x10000 -> n = len b -> u16_at (b ++ le 2 v ++ rest) n = v.
Proof.
  intros H ->. unfold u16_at. rewrite le_to_le. cbn [to_le app].
  rewrite (nth_app_at b _ 0), (nth_app_at b _ 1) by lia. cbn [nth]. now apply le2_value.
Qed.
Definition header_front (version flags method time date crc csize usize : N) : bytes :=
  record [(4%nat, 0x04034b50); (2%nat, version); (2%nat, flags); (2%nat, method); (2%nat, time);
          (2%nat, date); (4%nat, crc); (4%nat, csize); (4%nat, usize)].
Lemma local_header_split v f m t d c cs us nl xl :
  local_header v f m t d c cs us nl xl = header_front v f m t d c cs us ++ le 2 nl ++ le 2 xl.
Proof. unfold local_header, header_front, record. cbn [map concat fst snd]. now rewrite <- !app_assoc, !app_nil_r. Qed.
Lemma data_start_at b v f m t d c cs us nl xl rest :
  nl < 0x10000 -> xl < 0x10000 ->
  data_start (b ++ local_header v f m t d c cs us nl xl ++ rest) (len b) = len b + 30 + nl + xl.
Proof.
  intros H1 H2. rewrite local_header_split. set (h := header_front v f m t d c cs us). assert (L : len h = 26) by reflexivity.
  unfold data_start.
  replace (b ++ (h ++ le 2 nl ++ le 2 xl) ++ rest) with ((b ++ h) ++ le 2 nl ++ (le 2 xl ++ rest)) by now rewrite <- !app_assoc.
  rewrite u16_first by (rewrite ?len_app; lia).
  replace ((b ++ h) ++ le 2 nl ++ (le 2 xl ++ rest)) with (((b ++ h) ++ le 2 nl) ++ le 2 xl ++ rest) by now rewrite <- !app_assoc.
  rewrite u16_first; [reflexivity|lia|]. rewrite !len_app, L. change (len (le 2 nl)) with 2. lia.
Qed.

(** ** One entry *)
Lemma reads_as_stored mk flag xs basic z : reads_as mk flag xs basic z -> stored_bytes z = basic.
Proof. destruct 1; reflexivity. Qed.
Lemma flag_word_bits d u : N.testbit (flag_word false d u) 3 = d /\ N.testbit (flag_word false d u) 11 = u.
Proof. destruct d, u; split; reflexivity. Qed.
Lemma local_image_len it v f lx : len (local_image it v f lx) = 30 + len (i_name it) + len (spec_extras lx).
Proof. unfold local_image. cbv zeta. rewrite !len_app. change (len (local_header _ _ _ _ _ _ _ _ _ _)) with 30. lia. Qed.
Lemma sits_start d it v f lx : sits d it v f lx -> len (i_name it) < 0x10000 -> len (spec_extras lx) < 0x10000 ->
  exists before after, d = before ++ local_image it v f lx ++ i_data it ++ after /\ len before = i_off it /\
    data_start d (i_off it) = i_off it + len (local_image it v f lx).
Proof.
  intros (b & t & E & L) H1 H2. exists b, (descriptor_image it ++ t). split; [exact E|]. split; [exact L|].
  rewrite local_image_len, E, <- L. unfold local_image. cbv zeta. rewrite <- !app_assoc. rewrite data_start_at by assumption. lia.
Qed.
Lemma entry_back body rest it a st : entry_of body it a -> reported a st ->
  len (body ++ rest) < 0x10000000000000000 -> as_written (body ++ rest) it st.
Proof.
  intros ((v & f & lx & LO & SI) & MO) (R1 & R2 & R3 & R4 & R5 & R6 & R7 & R8 & R9 & R10 & R11 & R12 & R13 & R14) LB.
  set (d := body ++ rest) in *.
  assert (SD : sits d it v f lx).
  { destruct SI as (b & t & E & L). exists b, (t ++ rest). split; [|exact L]. unfold d. rewrite E. now rewrite <- !app_assoc. }
  destruct (lo_fits _ _ _ _ _ LO) as (F1 & F2 & F3 & F4).
  destruct (sits_start _ _ _ _ _ SD F1 F3) as (b & t & E & L & DS).
  assert (OF : st_file_offset st = i_off it) by (rewrite R13; apply LO).
  unfold as_written. cbv zeta.
  split; [rewrite (reads_as_stored _ _ _ _ _ R1); apply LO|]. split; [rewrite (reads_as_stored _ _ _ _ _ R2); apply LO|].
  split; [rewrite R3; apply LO|].
  split; [rewrite R7, (lo_date _ _ _ _ _ LO), (lo_time _ _ _ _ _ LO); now destruct (en_date (i_entry it))|].
  split; [rewrite R8; apply LO|]. split; [rewrite R9; apply LO|].
  split; [rewrite R12, (lo_flags _ _ _ _ _ LO); apply flag_word_bits|].
  split; [rewrite R4; apply LO|]. split; [rewrite R5; apply LO|]. split; [rewrite R6; apply LO|]. split; [exact OF|].
  assert (LD : len d = i_off it + (len (local_image it v f lx) + (len (i_data it) + len t))) by (rewrite E, !len_app; lia).
  pose proof (local_image_len it v f lx) as LI.
  split.
  - unfold has_local_header. rewrite OF. split; [|split].
    + rewrite E. unfold local_image. cbv zeta. rewrite local_header_split. unfold header_front, record. cbn [map concat fst snd].
      rewrite <- !app_assoc. eexists b, _. split; [reflexivity|exact L].
    + lia.
    + unfold u64_max. lia.
  - exists t. rewrite DS. rewrite E at 1 2. rewrite app_assoc.
    assert (X : firstn (N.to_nat (i_off it + len (local_image it v f lx))) ((b ++ local_image it v f lx) ++ i_data it ++ t) = b ++ local_image it v f lx).
    { rewrite <- take_firstn. apply take_app_exact. rewrite len_app. lia. }
    now rewrite X.
Qed.
Lemma region_written d it st : as_written d it st -> straight it -> region d st = i_data it.
Proof.
  intros (_ & _ & _ & _ & _ & _ & _ & _ & _ & CS & OF & _ & t & E) S. unfold region. rewrite CS, OF.
  assert (P : put_csize it = len (i_data it)) by (unfold put_csize, straight in *; destruct (i_swapped it); [rewrite <- S|]; reflexivity).
  rewrite P. remember (N.to_nat (data_start d (i_off it))) as n eqn:N0. clear N0 P CS.
  rewrite E at 1. rewrite skipn_app, firstn_length.
  destruct (Nat.le_gt_cases n (length d)) as [L|L].
  - rewrite (skipn_all2 (firstn n d)) by (rewrite firstn_length; lia). replace (n - Nat.min n (length d))%nat with 0%nat by lia.
    cbn [skipn app]. unfold len. rewrite Nat2N.id. rewrite firstn_app, Nat.sub_diag, firstn_all. cbn [firstn]. apply app_nil_r.
  - assert (X := f_equal (@length byte) E). rewrite !app_length, firstn_length in X.
    assert (D : i_data it = []) by (apply length_zero_iff_nil; lia). now rewrite D.
Qed.
Lemma compressed_decodes cd c data z : codec_ok cd -> compressed cd c data z -> decoded cd c z = (data, true).
Proof.
  intros (_ & K) [content ->|level content out st N1 N2 R]; [reflexivity|].
  specialize (K c level content out st [] N1 N2 R). rewrite app_nil_r in K. unfold decoded. rewrite K. now destruct c.
Qed.
Lemma leaves_holds cd no64 o it data : codec_ok cd -> leaves cd no64 o it -> holds cd o data ->
  decoded cd (en_compression (i_entry it)) (i_data it) = (data, true) /\ crc32_spec data = i_crc it.
Proof.
  intros K L H. destruct L as [e d z off C|e z off|e body z off C|e body off]; inversion H; subst; cbn [i_entry i_data i_crc].
  - split; [now apply compressed_decodes|reflexivity].
  - assumption.
  - split; [now apply compressed_decodes|reflexivity].
  - assumption.
Qed.
Lemma written_content cd no64 o it data d st : codec_ok cd -> leaves cd no64 o it -> holds cd o data -> straight it ->
  as_written d it st -> checked_content cd d st = Ok data.
Proof.
  intros K L H S W. pose proof (region_written _ _ _ W S) as R. destruct (leaves_holds _ _ _ _ _ K L H) as [D C].
  destruct W as (_ & _ & CM & _ & _ & _ & _ & CR & _).
  unfold checked_content. rewrite CM, R, D, C, CR, N.eqb_refl. reflexivity.
Qed.

(** ** The archive *)
Lemma size_clear_items it : size_clear it -> sizes_clear it.
Proof.
  intros H I O. apply H. unfold in64, off64 in *. destruct (i_stream it); [|reflexivity]. rewrite I in O. discriminate.
Qed.
Lemma near_clear it : is_over (i_off it) = false -> sizes_clear it.
Proof. intros H I O. unfold in64, off64 in *. destruct (i_stream it); congruence. Qed.
Lemma entry_near body it a : entry_of body it a -> len body <= 0xFFFFFFFF -> is_over (i_off it) = false.
Proof.
  intros ((v & f & lx & _ & (b & t & E & L)) & _) H. unfold is_over. rewrite <- L. rewrite E, len_app in H. lia.
Qed.
Lemma recorded_take n no64 xs (P : bool * wop -> Prop) : succeeded no64 xs = take n (recorded no64 xs) -> Forall P (succeeded no64 xs) ->
  Forall P (take n (recorded no64 xs)).
Proof. now intros ->. Qed.

Lemma Forall2_Forall {A B} (R : A -> B -> Prop) (P : A -> Prop) (Q : B -> Prop) l m :
  (forall a b, R a b -> P a -> Q b) -> Forall2 R l m -> Forall P l -> Forall Q m.
Proof. intros H F. induction F; intro G; constructor; inversion G; subst; eauto. Qed.
Lemma Forall2_len {A B} (R : A -> B -> Prop) l m : Forall2 R l m -> length l = length m.
Proof. induction 1; cbn; congruence. Qed.
Lemma Forall2_weaken {A B} (R S : A -> B -> Prop) l m : (forall a b, R a b -> S a b) -> Forall2 R l m -> Forall2 S l m.
Proof. intro H. induction 1; constructor; auto. Qed.
Lemma Forall2_and {A B} (R S : A -> B -> Prop) l m : Forall2 R l m -> Forall2 S l m -> Forall2 (fun a b => R a b /\ S a b) l m.
Proof. intro F. induction F; intro G; inversion G; subst; constructor; auto. Qed.
Lemma Forall2_compose {A B C} (R : A -> B -> Prop) (S : B -> C -> Prop) l m k :
  Forall2 R l m -> Forall2 S m k -> Forall2 (fun a c => exists b, R a b /\ S b c) l k.
Proof. intro F. revert k. induction F; intros k G; inversion G; subst; constructor; eauto. Qed.

Lemma listed_succeeded cd l xs d z body its ms : shape cd l xs d z body its ms ->
  (z = true -> Forall (fun x => too_many (snd x) = false) xs) -> listed z (recorded false xs) = succeeded false xs.
Proof.
  intros SH TM. destruct z; cbn [listed].
  - now apply recorded_succeeded, TM.
  - now rewrite (sh_count _ _ _ _ _ _ _ _ SH).
Qed.

Lemma listed_ok cd l xs d z body its ms :
  shape cd l xs d z body its ms ->
  (z = true -> Forall (fun x => too_many (snd x) = false) xs) ->
  (len d <= 0xFFFFFFFF \/ Forall (fun x => forall it, leaves cd (fst x) (snd x) it -> size_clear it) (succeeded false xs)) ->
  Forall member_ok (listed z ms) /\ len (listed z ms) = len (succeeded false xs).
Proof.
  intros SH TM SC.
  pose proof (listed_succeeded _ _ _ _ _ _ _ _ SH TM) as LS.
  pose proof (Forall2_listed z _ _ _ (sh_items _ _ _ _ _ _ _ _ SH)) as FI. rewrite LS in FI.
  pose proof (Forall2_listed z _ _ _ (sh_members _ _ _ _ _ _ _ _ SH)) as FM.
  assert (LB : len body <= len d) by (rewrite (sh_bytes _ _ _ _ _ _ _ _ SH), len_app; lia).
  assert (MO : Forall member_ok (listed z ms)).
  { assert (CL : Forall sizes_clear (listed z its)).
    { destruct SC as [SC|SC].
      - assert (F2 : Forall2 (fun it a => entry_of body it a) (listed z its) (listed z ms)) by exact FM.
        clear -F2 SC LB. induction F2; constructor; auto. eapply near_clear, entry_near; [eassumption|lia].
      - eapply (Forall2_Forall _ _ _ _ _ _ FI SC). Unshelve. cbv beta. intros x it L H. apply size_clear_items. now apply H. }
    eapply (Forall2_Forall _ _ _ _ _ _ FM CL). Unshelve. intros it a [_ H] C. now apply H. }
  assert (LL : length (listed z ms) = length (succeeded false xs)).
  { rewrite <- (Forall2_len _ _ _ FM). symmetry. exact (Forall2_len _ _ _ FI). }
  split; [exact MO|]. unfold len. now rewrite LL.
Qed.
Lemma archive_back cd cfg s l xs d z body its ms :
  shape cd l xs d z body its ms ->
  (z = true -> Forall (fun x => too_many (snd x) = false) xs) ->
  (len d <= 0xFFFFFFFF \/ Forall (fun x => forall it, leaves cd (fst x) (snd x) it -> size_clear it) (succeeded false xs)) ->
  end_clear z (last_comment l) d -> len d < 0x10000000000000000 ->
  s_data s = d -> nofail (s_sched s) -> len (succeeded false xs) * entry_mem_size cfg <= isize_max ->
  exists f, fst (file cfg s) = Ok f /\ f_zip64 f = z /\ comment_reads_as (last_comment l) (f_comment f) /\
    Forall2 (fun x st => exists it a, leaves cd (fst x) (snd x) it /\ entry_of body it a /\ reported a st /\ as_written d it st)
      (succeeded false xs) (f_entries f).
Proof.
  intros SH TM SC EC LD SD NF MEM.
  pose proof (listed_succeeded _ _ _ _ _ _ _ _ SH TM) as LS.
  pose proof (Forall2_listed z _ _ _ (sh_items _ _ _ _ _ _ _ _ SH)) as FI. rewrite LS in FI.
  pose proof (Forall2_listed z _ _ _ (sh_members _ _ _ _ _ _ _ _ SH)) as FM.
  assert (LB : len body <= len d) by (rewrite (sh_bytes _ _ _ _ _ _ _ _ SH), len_app; lia).
  destruct (listed_ok _ _ _ _ _ _ _ _ SH TM SC) as [MO LL].
  destruct (archive_opens cfg s d z body ms (last_comment l)) as (f & F & RF & RZ & RC); try assumption.
  - exact (sh_bytes _ _ _ _ _ _ _ _ SH).
  - intro H. now apply (sh_far _ _ _ _ _ _ _ _ SH).
  - now rewrite LL.
  - exists f. split; [exact F|]. split; [exact RZ|]. split; [exact RC|].
    pose proof (Forall2_compose _ _ _ _ _ FI (Forall2_compose _ _ _ _ _ FM RF)) as C.
    eapply Forall2_weaken; [|exact C]. cbv beta. intros x st (it & LV & a & EO & RP). exists it, a.
    split; [exact LV|]. split; [exact EO|]. split; [exact RP|].
    rewrite (sh_bytes _ _ _ _ _ _ _ _ SH) in LD |- *. now apply (entry_back _ _ _ a).
Qed.

Lemma archive_read cd xs d body f i s no64 o data :
  codec_ok cd -> nofail (s_sched s) -> s_data s = d ->
  Forall2 (fun x st => exists it a, leaves cd (fst x) (snd x) it /\ entry_of body it a /\ reported a st /\ as_written d it st)
      (succeeded false xs) (f_entries f) ->
  nth_error (succeeded false xs) (N.to_nat i) = Some (no64, o) -> holds cd o data ->
  (forall it, leaves cd no64 o it -> straight it) ->
  read_entry cd f i s = Ok data /\ mem_read_entry cd {| m_data := d; m_file := f |} i = Ok data.
Proof.
  intros K NF SD F2 N1 H S.
  assert (E : exists st, entry_at f i = Some st /\ exists it, leaves cd no64 o it /\ as_written d it st).
  { unfold entry_at. revert F2 N1. generalize (N.to_nat i) as n. generalize (succeeded false xs) as ys, (f_entries f) as zs. clear.
    intros ys zs n F. revert n. induction F as [|x st ys1 zs1 (it & a & L & _ & _ & W) _ IH]; intros [|n] N; try discriminate.
    - cbn in N. injection N as ->. exists st. split; [reflexivity|]. now exists it.
    - cbn in N |- *. now apply IH. }
  destruct E as (st & E & it & L & W).
  assert (HL : has_local_header d st) by apply W.
  pose proof (written_content cd no64 o it data d st K L H (S it L) W) as C.
  split.
  - rewrite (read_entry_content cd f i s st); rewrite ?SD; assumption.
  - rewrite (mem_read_entry_content cd {| m_data := d; m_file := f |} i st); assumption.
Qed.
