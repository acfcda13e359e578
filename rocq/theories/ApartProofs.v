(** Written entries lie one behind the other; others need not. *)
From Verif Require Import Base BaseFacts SpecFormat SpecCrc CrcFacts SpecArchive SpecRead ZString ZDate Headers ExtraField Entry IO IOFacts Reader EntryReader Writer SpecWrite
  ReadProofs HistFacts CloseFacts RoundTrip ArchiveProofs Zip64Proofs ToldProofs PadProofs SpecOrdinary OrdinaryProofs SpecApart.
Arguments N.add : simpl never.
Arguments N.sub : simpl never.

(** ** Written archives *)
Lemma sits_within d it v f lx : sits d it v f lx -> i_off it + len (item_image it v f lx) <= len d.
Proof. intros (b & t & E & L). rewrite E. unfold item_image. rewrite !len_app. lia. Qed.
Lemma spaced_le d its : forall lo, spaced d lo its -> lo <= len d.
Proof.
  destruct its as [|it its]; cbn [spaced]; intro lo; [auto|]. intros (L & a & v & f & lx & LO & SI & S).
  pose proof (sits_within _ _ _ _ _ SI). lia.
Qed.
Lemma spaced_first d n : forall its lo, spaced d lo its -> spaced d lo (firstn n its).
Proof.
  induction n as [|n IH]; intros its lo S; [exact (spaced_le _ _ _ S)|]. destruct its as [|it its]; [exact S|]. cbn [firstn spaced] in *.
  destruct S as (L & a & v & f & lx & LO & SI & S). split; [exact L|]. exists a, v, f, lx. split; [exact LO|]. split; [exact SI|]. now apply IH.
Qed.
Lemma spaced_listed d z its lo : spaced d lo its -> spaced d lo (listed z its).
Proof. destruct z; cbn [listed]; [auto|]. rewrite take_firstn. apply spaced_first. Qed.
Lemma spaced_apart body rest its es : Forall2 (fun it st => st_file_offset st = i_off it /\ en_compressed_size (st_entry st) = i_csize it) its es ->
  forall lo, spaced body lo its -> one_behind_other (body ++ rest) lo es (len body).
Proof.
  induction 1 as [|it st its es (E1 & E2) _ IH]; intros lo S; cbn [spaced one_behind_other] in *; [exact S|].
  destruct S as (L & a & v & f & lx & LO & SI & S). split; [lia|]. apply IH. revert S. apply spaced_from.
  destruct (lo_fits _ _ _ _ _ LO) as (F1 & _ & F3 & _).
  destruct (sits_start _ _ _ _ _ (sits_more _ rest _ _ _ _ SI) F1 F3) as (b & t & _ & _ & DS).
  unfold reach. rewrite E1, E2, DS. unfold item_image, i_csize. rewrite !len_app. lia.
Qed.
Lemma apart_back cd cfg s l xs d z body its ms :
  shape cd l xs d z body its ms ->
  (z = true -> Forall (fun x => too_many (snd x) = false) xs) ->
  (len d <= 0xFFFFFFFF \/ Forall (fun x => forall it, leaves cd (fst x) (snd x) it -> size_clear it) (succeeded false xs)) ->
  end_clear z (last_comment l) d -> len d < 0x10000000000000000 ->
  s_data s = d -> nofail (s_sched s) -> len (succeeded false xs) * entry_mem_size cfg <= isize_max ->
  Forall (fun x => forall it, leaves cd (fst x) (snd x) it -> straight it) (succeeded false xs) ->
  exists f, fst (file cfg s) = Ok f /\ one_behind_other d 0 (f_entries f) (len body).
Proof.
  intros SH TM SC EC LD SD NF MEM ST.
  pose proof (listed_succeeded _ _ _ _ _ _ _ _ SH TM) as LS.
  pose proof (Forall2_listed z _ _ _ (sh_items _ _ _ _ _ _ _ _ SH)) as FI. rewrite LS in FI.
  pose proof (Forall2_listed z _ _ _ (sh_members _ _ _ _ _ _ _ _ SH)) as FM.
  destruct (listed_ok _ _ _ _ _ _ _ _ SH TM SC) as [MO LL].
  destruct (archive_opens cfg s d z body ms (last_comment l)) as (f & F & RF & RZ & RC); try assumption.
  - exact (sh_bytes _ _ _ _ _ _ _ _ SH).
  - intro H. now apply (sh_far _ _ _ _ _ _ _ _ SH).
  - now rewrite LL.
  - exists f. split; [exact F|].
    pose proof (Forall2_compose _ _ _ _ _ FM RF) as C. rewrite (sh_bytes _ _ _ _ _ _ _ _ SH).
    apply (spaced_apart _ _ (listed z its)); [|apply spaced_listed, (sh_spaced _ _ _ _ _ _ _ _ SH)].
    assert (SI : Forall straight (listed z its)).
    { revert FI ST. clear. intro FI. induction FI as [|x it ys zs L _ IH]; intro ST; constructor; inversion ST; subst; auto. }
    revert C SI. clear. intro C. induction C as [|it st zs es (a & EO & RP) _ IH]; intro SI; constructor; inversion SI; subst; auto.
    destruct EO as ((v & g & lx & LO & _) & _). destruct RP as (_ & _ & _ & _ & _ & R6 & _ & _ & _ & _ & _ & _ & R13 & _).
    rewrite R6, R13, (lo_offset _ _ _ _ _ LO), (lo_csize _ _ _ _ _ LO). split; [reflexivity|]. now apply straight_sizes.
Qed.
Lemma written_apart cd cfg sched s l : codec_ok cd -> Forall op_good l ->
  let '(xs, r, w) := run_archive cd sched l in
  let d := w_bytes w in
  r = Ok tt -> unambiguous cd cfg l xs (w_zip64 w) d -> s_data s = d -> nofail (s_sched s) ->
  Forall (fun x => forall it, leaves cd (fst x) (snd x) it -> straight it) (succeeded false xs) ->
  exists f, fst (file cfg s) = Ok f /\ one_behind_other d 0 (f_entries f) (len (w_bytes (snd (run_ops cd l (zw_new sched))))).
Proof.
  intros K G. pose proof (archive_shape cd sched l (proj1 K) G) as H. destruct (run_archive cd sched l) as [[xs r] w]. cbv zeta in *.
  intros R (U1 & U2 & U3 & U4 & U5) SD NF ST. destruct (H R U1) as (its & ms & SH). now apply (apart_back _ cfg s _ _ _ _ _ _ _ SH).
Qed.
Lemma apart_claimed d es : forall lo hi, one_behind_other d lo es hi -> lo + 30 * len es + claimed es <= hi.
Proof.
  induction es as [|e es IH]; intros lo hi; cbn [one_behind_other claimed]; [change (len []) with 0; lia|].
  intros [L A]. apply IH in A. unfold reach, data_start in A. rewrite len_cons. lia.
Qed.

(** ** The same place many times *)
Lemma bomb_ok data : len data < 0x5000000 -> member_ok (bomb_member data).
Proof.
  intro L. unfold member_ok, bomb_member, fits. cbn -[crc32_spec len N.lt].
  assert (C : crc32_spec data < 0x100000000) by (rewrite <- crc32_is_spec; exact (crc32_bound data)). repeat split; try assumption; try lia; try (cbn; lia); try constructor; try discriminate; intros; try lia; try discriminate.
Qed.
Lemma bomb_record data : len (member_record (bomb_member data)) = 47.
Proof. reflexivity. Qed.
Lemma bomb_records data n : len (members (repeat (bomb_member data) n)) = 47 * N.of_nat n.
Proof.
  induction n as [|n IH]; [reflexivity|]. cbn [repeat]. unfold members in *. cbn [map concat]. rewrite len_app, IH, bomb_record. lia.
Qed.
Lemma bomb_quiet data : quiet_member (bomb_member data).
Proof.
  unfold quiet_member, bomb_member, free_of. cbn -[N.lt]. repeat split; try lia; try (cbn; intuition discriminate).
Qed.
Lemma bomb_size n data : len (bomb n data) = 53 + len data + 47 * N.of_nat n.
Proof.
  unfold bomb. rewrite !len_app, bomb_records. change (len (end_record _ _ _ _ _ _ _)) with 22. unfold bomb_lead. rewrite !len_app.
  change (len (local_header _ _ _ _ _ _ _ _ _ _)) with 30. change (len [x61]) with 1. lia.
Qed.
Lemma bomb_lead_size data : len (bomb_lead data) = 31 + len data.
Proof. unfold bomb_lead. rewrite !len_app. change (len (local_header _ _ _ _ _ _ _ _ _ _)) with 30. change (len [x61]) with 1. lia. Qed.
Lemma bomb_content cd n data e : len data < 0x4000000 -> reported (bomb_member data) e ->
  has_local_header (bomb n data) e /\ checked_content cd (bomb n data) e = Ok data /\ reach (bomb n data) e = len (bomb_lead data).
Proof.
  intros L (_ & _ & R3 & R4 & _ & R6 & _ & _ & _ & _ & _ & _ & R13 & _). cbn [bomb_member a_method a_crc a_csize a_offset] in *.
  assert (D : bomb n data = (local_header 10 0 0 0 33 (crc32_spec data) (len data) (len data) 1 0 ++ [x61]) ++ data ++
    members (repeat (bomb_member data) n) ++ end_record 0 0 (N.of_nat n) (N.of_nat n) (47 * N.of_nat n) (len (bomb_lead data)) 0).
  { unfold bomb, bomb_lead. now rewrite <- !app_assoc. }
  assert (DS : data_start (bomb n data) (st_file_offset e) = 31).
  { rewrite R13, D, <- app_assoc. exact (data_start_at [] 10 0 0 0 33 _ _ _ 1 0 _ eq_refl eq_refl). }
  split; [|split].
  - split; [|split].
    + rewrite R13. exists []. eexists. split; [|reflexivity]. rewrite D. unfold local_header, record. cbn [map concat fst snd app].
      rewrite <- !app_assoc. reflexivity.
    + rewrite R13, bomb_size. lia.
    + rewrite DS. vm_compute. discriminate.
  - unfold checked_content, decoded. rewrite R3.
    assert (RG : region (bomb n data) e = data).
    { unfold region. rewrite DS, R6, D. change (N.to_nat 31) with 31%nat.
      assert (LL : length (local_header 10 0 0 0 33 (crc32_spec data) (len data) (len data) 1 0 ++ [x61]) = 31%nat) by reflexivity.
      rewrite <- LL, skipn_app, skipn_all, Nat.sub_diag. cbn [skipn app]. unfold len. rewrite Nat2N.id, firstn_app, firstn_all, Nat.sub_diag. cbn [firstn].
      now rewrite app_nil_r. }
    rewrite RG, R4, N.eqb_refl. reflexivity.
  - unfold reach. rewrite DS, R6, bomb_lead_size. reflexivity.
Qed.
Lemma bomb_opens cd cfg n data s : (0 < n)%nat -> N.of_nat n < 0x4b50 -> len data < 0x4000000 -> s_data s = bomb n data -> nofail (s_sched s) ->
  N.of_nat n * entry_mem_size cfg <= isize_max ->
  exists f, fst (file cfg s) = Ok f /\ len (f_entries f) = N.of_nat n /\ claimed (f_entries f) = N.of_nat n * len data /\
    Forall (fun e => st_file_offset e = 0 /\ reach (bomb n data) e = 31 + len data) (f_entries f) /\
    forall i, i < N.of_nat n -> read_entry cd f i s = Ok data.
Proof.
  intros P HN L SD NF MEM.
  assert (LR : len (repeat (bomb_member data) n) = N.of_nat n) by (unfold len; now rewrite repeat_length).
  destruct (open_classic_at cfg s (repeat (bomb_member data) n) (bomb_lead data) [] 0 (47 * N.of_nat n) [] []) as (f & F & RF & _).
  - apply Forall_forall. intros x I. apply repeat_spec in I as ->. apply bomb_ok. lia.
  - rewrite SD. unfold bomb. rewrite LR. reflexivity.
  - lia.
  - lia.
  - lia.
  - rewrite bomb_lead_size. lia.
  - cbn. lia.
  - rewrite SD, app_nil_r. intros q Q. unfold bomb in Q. rewrite app_assoc in Q.
    apply (no_second_end _ (N.of_nat n) (47 * N.of_nat n) (len (bomb_lead data)) 0 [] q); try lia.
    + rewrite bomb_lead_size. lia.
    + intros [].
    + now rewrite app_nil_r.
  - rewrite SD, app_nil_r. destruct n as [|n]; [lia|]. intros q Q. unfold bomb in Q. cbn [repeat] in *. rewrite repeat_cons in *.
    unfold members in *. rewrite map_app, concat_app in *. cbn [map concat] in *. rewrite app_nil_r in *.
    rewrite <- app_assoc, app_assoc in Q. rewrite app_assoc, len_app. apply (no_locator_in (bomb_member data) _ _ _ (bomb_quiet data)) in Q; [exact Q|].
    rewrite bomb_record. lia.
  - exact NF.
  - now rewrite LR.
  - exists f. split; [exact F|].
    assert (AL : Forall (reported (bomb_member data)) (f_entries f)).
    { revert RF. generalize n. clear. intro n. generalize (f_entries f). induction n as [|n IH]; intros es R; inversion R; subst; constructor; auto. }
    assert (LE : len (f_entries f) = N.of_nat n) by (rewrite <- LR; unfold len; f_equal; symmetry; exact (Forall2_len _ _ _ RF)).
    split; [exact LE|]. split; [|split].
    + rewrite <- LE. revert AL. generalize (f_entries f). clear. induction 1 as [|e es R _ IH]; [reflexivity|]. cbn [claimed].
      rewrite IH, len_cons. destruct R as (_ & _ & _ & _ & _ & -> & _). cbn [bomb_member a_csize]. lia.
    + eapply Forall_impl; [|exact AL]. cbv beta. intros e R. destruct (bomb_content cd n data e L R) as (_ & _ & ->). split; [|apply bomb_lead_size].
      apply R.
    + intros i I. destruct (entry_at f i) as [e|] eqn:E.
      * assert (R : reported (bomb_member data) e).
        { apply nth_error_In in E. rewrite Forall_forall in AL. now apply AL. }
        destruct (bomb_content cd n data e L R) as (H & C & _). rewrite (read_entry_content cd f i s e NF E); rewrite SD; assumption.
      * apply nth_error_None in E. unfold len in LE. lia.
Qed.
