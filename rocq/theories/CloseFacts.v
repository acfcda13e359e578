(** What [close] puts after the entries, and what a reader makes of the whole archive. *)
From Verif Require Import Base BaseFacts Crc32 ZString ZDate Headers HeadersFacts ExtraField ExtraFieldFacts Entry IO IOFacts Locator LocatorFacts
  Reader ReaderFacts EntryReader Writer WriterFacts WholeFacts StreamFacts WriteProofs RecordFacts HistFacts SpecFormat SpecArchive OpenFacts ReadProofs SpecCrc SpecUtf8 SpecWrite.
Arguments N.add : simpl never.
Arguments N.sub : simpl never.

(** ** Bytes *)
Lemma write_all_inv {A} b (k : SM world A) w x w' : (write_all b ;;; k) w = (Ok x, w') ->
  exists w1 u, moved w w1 b u 0 /\ k w1 = (Ok x, w').
Proof.
  unfold bind. pose proof (write_all_spec b w) as S. destruct (write_all b w) as [[y|e|p] w1]; intro H; try discriminate.
  destruct S as (u & M & _). exists w1, u. auto.
Qed.
Lemma write_all_last b w x w' : write_all b w = (Ok x, w') -> exists u, moved w w' b u 0.
Proof. intro H. pose proof (write_all_spec b w) as S. rewrite H in S. destruct S as (u & M & _). now exists u. Qed.
Lemma cd_entries_ok l : Forall (fun c => fields_count_bytes (en_extra (ce_entry c)) < 65536) l -> forall w x w',
  write_cd_entries l w = (Ok x, w') -> exists u, moved w w' (concat (map ce_bytes l)) u 0.
Proof.
  induction 1 as [|c l L _ IH]; intros w x w' H.
  - cbn in H. injection H as _ <-. exists []. apply moved_refl.
  - cbn [write_cd_entries map concat] in *. unfold bind in H at 1.
    destruct (write_cd_entry c w) as [[y|y|y] w1] eqn:E; try discriminate. apply IH in H as (u2 & M2).
    unfold write_cd_entry in E. cbv zeta in E.
    apply write_all_inv in E as (v1 & a1 & N1 & E). apply write_all_inv in E as (v2 & a2 & N2 & E).
    apply write_all_inv in E as (v3 & a3 & N3 & E).
    destruct (fields_as_bytes_no_panic _ L) as [xb X]. rewrite X, lift_ok in E.
    apply write_all_inv in E as (v4 & a4 & N4 & E). apply write_all_last in E as (a5 & N5).
    pose proof (moved_trans _ _ _ _ _ _ _ _ _ N1 (moved_trans _ _ _ _ _ _ _ _ _ N2 (moved_trans _ _ _ _ _ _ _ _ _ N3
      (moved_trans _ _ _ _ _ _ _ _ _ N4 (moved_trans _ _ _ _ _ _ _ _ _ N5 M2))))) as M.
    eexists. replace (ce_bytes c ++ concat (map ce_bytes l)) with
      (to_le 4 CDH_SIGNATURE ++ cdr_as_slice (ce_header c) ++ basic_bytes (en_filename (ce_entry c)) ++ xb ++ basic_bytes (en_comment (ce_entry c)) ++ concat (map ce_bytes l)).
    { exact M. }
    unfold ce_bytes. unfold fields_bytes. rewrite X. now rewrite <- !app_assoc.
Qed.
Lemma sat32 v : (if NON_ZIP64_MAX_SIZE <? v then NON_ZIP64_MAX_SIZE else as_u32 v) = N.min v 0xFFFFFFFF.
Proof.
  change NON_ZIP64_MAX_SIZE with 0xFFFFFFFF. destruct (N.ltb_spec 0xFFFFFFFF v) as [L|L]; [lia|].
  rewrite as_u32_small by lia. lia.
Qed.
Lemma sat16 v : (if NON_ZIP64_MAX_NUM_FILES <? v then NON_ZIP64_MAX_NUM_FILES else as_u16 v) = N.min v 0xFFFF.
Proof.
  change NON_ZIP64_MAX_NUM_FILES with 0xFFFF. destruct (N.ltb_spec 0xFFFF v) as [L|L]; [lia|].
  unfold as_u16. rewrite N.mod_small by lia. lia.
Qed.
Lemma comment_write w x w' (c : option bytes) : match c with Some s => write_all s | None => ret tt end w = (Ok x, w') ->
  exists u, moved w w' (comment_bytes c) u 0.
Proof.
  destruct c; intro H; [now apply write_all_last in H|]. injection H as _ <-. exists []. apply moved_refl.
Qed.

Definition end64_writes (n size off : N) : list bytes :=
  [to_le 4 ZIP64_EOCDR_SIGNATURE; z64_eocdr_as_bytes (zip64_body 44 as_made_by 46 0 0 n n size off);
   to_le 4 ZIP64_EOCDL_SIGNATURE; z64_eocdl_as_bytes {| zl_disk := 0; zl_relative_offset := off + size; zl_total_disks := 1 |}].
Definition end_writes (n size off : N) (c : option bytes) : list bytes :=
  [to_le 4 EOCDR_SIGNATURE; eocdr_as_slice
    {| e_disk_num := 0; e_start_cent_dir_disk := 0; e_num_of_entries_disk := N.min n 0xFFFF;
       e_num_of_entries := N.min n 0xFFFF; e_size_cent_dir := N.min size 0xFFFFFFFF; e_cent_dir_offset := N.min off 0xFFFFFFFF;
       e_file_comm_length := match c with Some c => as_u16 (len c) | None => 0 end |}; comment_bytes c].
Lemma end_writes_eq (z : bool) n size off c :
  concat (if z then end64_writes n size off else []) ++ concat (end_writes n size off c) = archive_end z n size off (comment_bytes c).
Proof.
  unfold archive_end. f_equal.
  - destruct z; [|reflexivity]. rewrite zip64_end_eq, zip64_locator_eq. unfold end64_writes. cbn [concat]. rewrite app_nil_r, <- !app_assoc. reflexivity.
  - rewrite end_record_eq. unfold end_writes. cbn [concat]. rewrite app_nil_r, <- !app_assoc. destruct c; reflexivity.
Qed.
Lemma end_tail w n size off (c : option bytes) (x : unit) (w' : world) :
  (write_all (to_le 4 EOCDR_SIGNATURE) ;;; write_all (eocdr_as_slice
    {| e_disk_num := 0; e_start_cent_dir_disk := 0; e_num_of_entries_disk := N.min n 0xFFFF;
       e_num_of_entries := N.min n 0xFFFF; e_size_cent_dir := N.min size 0xFFFFFFFF; e_cent_dir_offset := N.min off 0xFFFFFFFF;
       e_file_comm_length := match c with Some c => as_u16 (len c) | None => 0 end |}) ;;;
   match c with Some c => write_all c | None => ret tt end) w = (Ok x, w') -> exists u, moved w w' (concat (end_writes n size off c)) u 0.
Proof.
  intro H. apply write_all_inv in H as (w1 & u1 & M1 & H). apply write_all_inv in H as (w2 & u2 & M2 & H).
  apply comment_write in H as (u3 & M3). eexists. unfold end_writes. cbn [concat]. rewrite app_nil_r.
  exact (moved_trans _ _ _ _ _ _ _ _ _ M1 (moved_trans _ _ _ _ _ _ _ _ _ M2 M3)).
Qed.
Lemma end64_tail {A} w n size off (k : SM world A) (x : A) (w' : world) : w_offset w = off + size ->
  ((let eocdr_offset := w_offset w in
    write_all (to_le 4 ZIP64_EOCDR_SIGNATURE) ;;; write_all (z64_eocdr_as_bytes (zip64_body 44 as_made_by 46 0 0 n n size off)) ;;;
    write_all (to_le 4 ZIP64_EOCDL_SIGNATURE) ;;;
    write_all (z64_eocdl_as_bytes {| zl_disk := 0; zl_relative_offset := eocdr_offset; zl_total_disks := 1 |})) ;;; k) w = (Ok x, w') ->
  exists w1 u, moved w w1 (concat (end64_writes n size off)) u 0 /\ k w1 = (Ok x, w').
Proof.
  intros O H. cbv zeta in H. rewrite O in H. unfold bind at 1 in H.
  destruct ((write_all (to_le 4 ZIP64_EOCDR_SIGNATURE) ;;; _) w) as [[y|y|y] w0] eqn:E; try discriminate.
  apply write_all_inv in E as (w1 & u1 & M1 & E). apply write_all_inv in E as (w2 & u2 & M2 & E).
  apply write_all_inv in E as (w3 & u3 & M3 & E). apply write_all_last in E as (u4 & M4).
  eexists w0, _. split; [|exact H]. unfold end64_writes. cbn [concat]. rewrite app_nil_r.
  exact (moved_trans _ _ _ _ _ _ _ _ _ M1 (moved_trans _ _ _ _ _ _ _ _ _ M2 (moved_trans _ _ _ _ _ _ _ _ _ M3 M4))).
Qed.
Lemma close_ok w w' x : cds_short w -> zw_close w = (Ok x, w') ->
  let cdb := concat (map ce_bytes (w_cds w)) in
  w_bytes w' = w_bytes w ++ cdb ++
    archive_end (w_zip64 w || is_over (w_offset w)) (len (w_cds w)) (len cdb) (w_offset w) (comment_bytes (w_comment w)) /\
  (is_over (w_offset w) = true -> w_force_no w = false) /\ w_zip64 w' = w_zip64 w || is_over (w_offset w).
Proof.
  intros S H. cbv zeta. unfold zw_close in H. unfold bind at 1 in H. unfold get at 1 in H. cbv beta iota zeta in H.
  unfold bind at 1 in H. destruct (write_cd_entries (w_cds w) w) as [[y|y|y] w1] eqn:E; try discriminate.
  apply (cd_entries_ok _ S) in E as (u1 & M1). set (cdb := concat (map ce_bytes (w_cds w))) in *.
  unfold bind at 1 in H. unfold get at 1 in H. cbv beta iota zeta in H.
  pose proof (moved_offset _ _ _ _ _ M1) as O1. rewrite O1 in H. replace (w_offset w + len cdb - w_offset w) with (len cdb) in H by lia.
  rewrite sat32, sat16 in H. pose proof (moved_cds _ _ _ _ _ M1) as C1. rewrite C1 in H.
  pose proof (moved_zip64 _ _ _ _ _ M1) as Z1. pose proof (moved_force _ _ _ _ _ M1) as F1. rewrite F1 in H.
  pose proof (moved_bytes _ _ _ _ _ M1) as B1.
  assert (K1 : w_comment w1 = w_comment w) by (destruct M1 as [_ ->]; reflexivity).
  change (NON_ZIP64_MAX_SIZE <? w_offset w) with (is_over (w_offset w)) in H.
  assert (G : exists w2, w_offset w2 = w_offset w + len cdb /\ w_zip64 w2 = w_zip64 w || is_over (w_offset w) /\ w_comment w2 = w_comment w /\
    w_bytes w2 = w_bytes w1 /\ (is_over (w_offset w) = true -> w_force_no w = false) /\
    ((if w_zip64 w2 then
       let eocdr_offset := w_offset w2 in
       write_all (to_le 4 ZIP64_EOCDR_SIGNATURE) ;;; write_all (z64_eocdr_as_bytes (zip64_body 44 as_made_by 46 0 0 (len (w_cds w)) (len (w_cds w)) (len cdb) (w_offset w))) ;;;
       write_all (to_le 4 ZIP64_EOCDL_SIGNATURE) ;;;
       write_all (z64_eocdl_as_bytes {| zl_disk := 0; zl_relative_offset := eocdr_offset; zl_total_disks := 1 |})
     else ret tt) ;;;
     write_all (to_le 4 EOCDR_SIGNATURE) ;;; write_all (eocdr_as_slice
      {| e_disk_num := 0; e_start_cent_dir_disk := 0; e_num_of_entries_disk := N.min (len (w_cds w)) 0xFFFF;
         e_num_of_entries := N.min (len (w_cds w)) 0xFFFF; e_size_cent_dir := N.min (len cdb) 0xFFFFFFFF; e_cent_dir_offset := N.min (w_offset w) 0xFFFFFFFF;
         e_file_comm_length := match w_comment w2 with Some c => as_u16 (len c) | None => 0 end |}) ;;;
     match w_comment w2 with Some c => write_all c | None => ret tt end) w2 = (Ok x, w')).
  { destruct (is_over (w_offset w)) eqn:OV.
    - destruct (w_force_no w) eqn:FN; [discriminate|]. exists (set_zip64 w1 true). split; [exact O1|]. split; [now rewrite orb_true_r|]. split; [exact K1|]. split; [reflexivity|]. split; [reflexivity|].
      assert (MN : N.min (w_offset w) 0xFFFFFFFF = NON_ZIP64_MAX_SIZE) by (unfold is_over in OV; change NON_ZIP64_MAX_SIZE with 0xFFFFFFFF; lia).
        rewrite MN. exact H.
    - exists w1. split; [exact O1|]. split; [now rewrite Z1, orb_false_r|]. split; [exact K1|]. split; [reflexivity|]. split; [discriminate|].
      assert (MN : N.min (w_offset w) 0xFFFFFFFF = as_u32 (w_offset w)) by (unfold is_over in OV; rewrite as_u32_small; lia).
        rewrite MN. exact H. }
  clear H. destruct G as (w2 & O2 & Z2 & K2 & B2 & FN & H).
  rewrite <- end_writes_eq. rewrite Z2 in H. destruct (w_zip64 w || is_over (w_offset w)).
  - apply end64_tail in H as (w3 & u3 & M3 & H); [|exact O2]. rewrite K2 in H. apply end_tail in H as (u4 & M4).
    split; [|split; [exact FN|now rewrite (moved_zip64 _ _ _ _ _ M4), (moved_zip64 _ _ _ _ _ M3)]].
    rewrite (moved_bytes _ _ _ _ _ M4), (moved_bytes _ _ _ _ _ M3), B2, B1. now rewrite <- !app_assoc.
  - unfold bind at 1 in H. unfold ret at 1 in H. cbv beta iota in H. rewrite K2 in H. apply end_tail in H as (u4 & M4).
    split; [|split; [exact FN|now rewrite (moved_zip64 _ _ _ _ _ M4)]].
    rewrite (moved_bytes _ _ _ _ _ M4), B2, B1. cbn [concat]. now rewrite <- !app_assoc.
Qed.

(** ** The whole archive *)
Lemma run_ops_comment cd l : forall w, w_comment (snd (run_ops cd l w)) = fold_left comment_after l (w_comment w).
Proof.
  induction l as [|o l IH]; intro w; [reflexivity|]. cbn [run_ops fold_left].
  destruct (run_op_keeps cd o w) as (_ & K & _). destruct (run_op cd o w) as [r w1]. specialize (IH w1).
  destruct (run_ops cd l w1). cbn [snd] in *. now rewrite IH, K.
Qed.
Lemma run_ops_force cd l : forall w, w_force_no (snd (run_ops cd l w)) = fold_left no_after l (w_force_no w).
Proof.
  induction l as [|o l IH]; intro w; [reflexivity|]. cbn [run_ops fold_left].
  destruct (run_op_keeps cd o w) as (K & _). destruct (run_op cd o w) as [r w1]. specialize (IH w1).
  destruct (run_ops cd l w1). cbn [snd] in *. now rewrite IH, K.
Qed.

Definition entry_of (d : bytes) (it : item) (a : member) : Prop := written_in d it a /\ (sizes_clear it -> member_ok a).
Lemma placed_members d cs its : Forall2 (placed d) cs its ->
  exists ms, concat (map ce_bytes cs) = members ms /\ length ms = length cs /\ Forall2 (entry_of d) its ms.
Proof.
  induction 1 as [|c it cs its (a & v & f & lx & LO & SI & CB & MO) _ (ms & E & L & F)].
  - exists []. auto.
  - exists (a :: ms). cbn [map concat length]. unfold members in *. cbn [map concat]. split; [now rewrite CB, E|]. split; [now rewrite L|].
    constructor; [|exact F]. split; [|exact MO]. now exists v, f, lx.
Qed.

Record shape (cd : codec) (l : list wop) (xs : list (wop * res unit)) (d : bytes) (z : bool) (body : bytes) (its : list item) (ms : list member) : Prop := {
  sh_bytes : d = body ++ members ms ++ archive_end z (len ms) (len (members ms)) (len body) (last_comment l);
  sh_items : Forall2 (fun x it => leaves cd (fst x) (snd x) it) (recorded false xs) its;
  sh_members : Forall2 (entry_of body) its ms;
  sh_no64 : Forall (fun it => i_no64 it = true -> i_big it = false /\ is_over (i_off it) = false) its;
  sh_zip64 : Forall (fun it => in64 it || off64 it = true -> z = true) its;
  sh_far : is_over (len body) = true -> z = true /\ fold_left no_after l false = false;
  sh_count : z = false -> succeeded false xs = take 65535 (recorded false xs);
  sh_all : Forall (fun x => too_many (snd x) = false) xs -> 65535 < len ms -> z = true;
  sh_spaced : spaced body 0 its }.

Lemma body_shape cd sched l : enc_takes cd -> Forall op_good l ->
  let '(xs, r, w) := run_archive cd sched l in
  r = Ok tt -> len (w_bytes (snd (run_ops cd l (zw_new sched)))) < 0x10000000000000000 ->
  exists its ms, shape cd l xs (w_bytes w) (w_zip64 w) (w_bytes (snd (run_ops cd l (zw_new sched)))) its ms.
Proof.
  intros T G. unfold run_archive. pose proof (run_ops_ran cd l T G (zw_new sched) eq_refl) as R.
  pose proof (cds_short_run_ops cd l T (zw_new sched) ltac:(constructor)) as S.
  pose proof (run_ops_comment cd l (zw_new sched)) as CM. pose proof (run_ops_force cd l (zw_new sched)) as FN.
  pose proof (run_ops_offset cd l sched) as OF. cbv zeta in OF.
  destruct (run_ops cd l (zw_new sched)) as [xs w]. cbn [snd] in *.
  destruct (zw_close w) as [r w'] eqn:C. intros -> LB'. apply (close_ok _ _ _ S) in C. cbv zeta in C. destruct C as (B & FA & Z).
  destruct (R LB') as (cs & its & [R1 R2 R3 R4 R5 R6 R7 R8 R9]). cbn [zw_new w_cds w_force_no w_comment] in *. cbn [app] in R1. subst cs.
  destruct (placed_members _ _ _ R2) as (ms & E & L & F). exists its, ms.
  assert (L' : len (w_cds w) = len ms) by (unfold len; now rewrite L).
  rewrite OF, L', E, CM in B. rewrite OF in Z. rewrite <- Z in B.
  constructor; try assumption.
  - eapply Forall_impl; [|exact R5]. intros it H I. rewrite Z, (H I). reflexivity.
  - intro H. rewrite Z, H, orb_true_r. split; [reflexivity|]. rewrite OF in FA. now rewrite <- FN, FA.
  - intro H. rewrite H in Z. symmetry in Z. apply orb_false_iff in Z as [Z _]. now apply R6.
  - intros H K. rewrite Z, R7; [reflexivity|exact H|cbn; lia|lia].
Qed.

Lemma archive_shape cd sched l : enc_takes cd -> Forall op_good l ->
  let '(xs, r, w) := run_archive cd sched l in
  r = Ok tt -> len (w_bytes w) < 0x10000000000000000 ->
  exists its ms, shape cd l xs (w_bytes w) (w_zip64 w) (w_bytes (snd (run_ops cd l (zw_new sched)))) its ms.
Proof.
  intros T G. pose proof (body_shape cd sched l T G) as H. pose proof (grows_close (snd (run_ops cd l (zw_new sched)))) as GR.
  unfold run_archive in *. destruct (run_ops cd l (zw_new sched)) as [xs w]. cbn [snd] in *. destruct (zw_close w) as [r w'] eqn:C. cbn [snd] in GR.
  intros R L. apply (H R). destruct GR as ((b & B & _) & _). rewrite B, len_app in L. lia.
Qed.

(** ** Opening it *)
Lemma len_end d1 d2 a b c e g : len (end_record d1 d2 a b c e g) = 22. Proof. reflexivity. Qed.
Lemma len_end64 a b c d e f g h i : len (zip64_end a b c d e f g h i) = 56. Proof. reflexivity. Qed.
Lemma len_loc64 a b c : len (zip64_end_locator a b c) = 20. Proof. reflexivity. Qed.
Lemma members_split n ms : members ms = members (take n ms) ++ members (drop n ms).
Proof. unfold members. rewrite <- concat_app, <- map_app, take_drop. reflexivity. Qed.
Definition listed (z : bool) {A} (l : list A) : list A := if z then l else take 65535 l.
Lemma Forall_take {A} (P : A -> Prop) n l : Forall P l -> Forall P (take n l).
Proof.
  intro F. rewrite take_firstn. revert F. generalize (N.to_nat n). clear n. intros n F. revert n.
  induction F as [|x l H _ IH]; intros [|n]; cbn; constructor; auto.
Qed.
Lemma Forall2_take {A B} (P : A -> B -> Prop) n l m : Forall2 P l m -> Forall2 P (take n l) (take n m).
Proof.
  intro F. rewrite !take_firstn. generalize (N.to_nat n). clear n. intro n. revert n.
  induction F as [|x y l m H _ IH]; intros [|n]; cbn; constructor; auto.
Qed.
Lemma Forall_listed (z : bool) {A} (P : A -> Prop) l : Forall P l -> Forall P (listed z l).
Proof. destruct z; [auto|apply Forall_take]. Qed.
Lemma Forall2_listed (z : bool) {A B} (P : A -> B -> Prop) l m : Forall2 P l m -> Forall2 P (listed z l) (listed z m).
Proof. destruct z; [auto|apply Forall2_take]. Qed.

Definition end_head (zip64 : bool) (n cd_size cd_off clen : N) : bytes :=
  (if zip64 then zip64_end 44 0x033F 46 0 0 n n cd_size cd_off ++ zip64_end_locator 0 (cd_off + cd_size) 1 else []) ++
  end_record 0 0 (N.min n 0xFFFF) (N.min n 0xFFFF) (N.min cd_size 0xFFFFFFFF) (N.min cd_off 0xFFFFFFFF) clen.
Lemma archive_end_head z n cd_size cd_off comment : archive_end z n cd_size cd_off comment = end_head z n cd_size cd_off (len comment mod 0x10000) ++ comment.
Proof. unfold archive_end, end_head. now rewrite <- !app_assoc. Qed.

Lemma archive_views cfg s d z body ms es clen rest :
  d = body ++ members ms ++ end_head z (len ms) (len (members ms)) (len body) clen ++ rest ->
  Forall member_ok (listed z ms) -> (is_over (len body) = true -> z = true) -> clen < 0x10000 -> end_clear z rest d ->
  len d < 0x10000000000000000 -> s_data s = d -> nofail (s_sched s) -> len (listed z ms) * entry_mem_size cfg <= isize_max ->
  Forall2 (fun i e => ci_view cfg i = Ok e) (map member_img (listed z ms)) es ->
  fst (file cfg s) = Ok {| f_entries := es; f_zip64 := z; f_comment := zs_new (take clen rest) EUtf8 |}.
Proof.
  intros E MO FA CL (LC & C1 & C2) LD SD NF MEM HV. rewrite <- SD in *. unfold end_head in E.
  destruct z; cbn [listed] in *.
  - apply (open_zip64_views cfg s ms es body [] [] clen rest 44 0x033F 46 0 0 (len ms) (len ms) (len (members ms)) (len body) 0 1 0 0
      (N.min (len ms) 0xFFFF) (N.min (len ms) 0xFFFF) (N.min (len (members ms)) 0xFFFFFFFF) (N.min (len body) 0xFFFFFFFF)).
    all: try assumption; try reflexivity.
    + rewrite E, <- !app_assoc. cbn [app]. rewrite <- (len_app body), ?app_nil_r. reflexivity.
    + assert (len ms <= len (members ms)).
      { clear. unfold members. induction ms as [|a ms IH]; [cbn; lia|]. cbn [map concat]. rewrite len_app.
        assert (46 <= len (member_record a)) by (unfold member_record; rewrite len_app; change (len (central_header _ _ _ _ _ _ _ _ _ _ _ _ _ _ _ _)) with 46; lia).
        unfold len in *. cbn [length]. lia. }
      rewrite E, !len_app in LD. lia.
    + assert (len ms <= len (members ms)).
      { clear. unfold members. induction ms as [|a ms IH]; [cbn; lia|]. cbn [map concat]. rewrite len_app.
        assert (46 <= len (member_record a)) by (unfold member_record; rewrite len_app; change (len (central_header _ _ _ _ _ _ _ _ _ _ _ _ _ _ _ _)) with 46; lia).
        unfold len in *. cbn [length]. lia. }
      rewrite E, !len_app in LD. lia.
    + rewrite E, !len_app in LD. lia.
    + rewrite E, !len_app in LD. lia.
    + lia.
    + lia.
    + lia.
    + lia.
    + unfold chosen. destruct (N.eqb_spec (N.min (len ms) 0xFFFF) 0xFFFF); lia.
    + unfold chosen. destruct (N.eqb_spec (N.min (len ms) 0xFFFF) 0xFFFF); lia.
    + unfold chosen. destruct (N.eqb_spec (N.min (len body) 0xFFFFFFFF) 0xFFFFFFFF); lia.
  - assert (LB : len body < 0x100000000) by (apply is_over_false; destruct (is_over (len body)); [now specialize (FA eq_refl)|reflexivity]).
    set (l := take 65535 ms) in *. set (gap := members (drop 65535 ms)).
    assert (LL : len l = N.min (len ms) 0xFFFF) by (unfold l; rewrite len_take; lia).
    assert (E' : s_data s = (body ++ members l ++ gap) ++ end_record 0 0 (len l) (len l) (N.min (len (members ms)) 0xFFFFFFFF) (len body) clen ++ rest).
    { rewrite E, (members_split 65535 ms) at 1. fold l gap. rewrite LL, (N.min_l (len body)) by lia. cbn [app]. rewrite <- !app_assoc. reflexivity. }
    assert (LE : len (s_data s) = len (body ++ members l ++ gap) + 22 + len rest).
    { rewrite E' at 1. rewrite len_app, (len_app (end_record _ _ _ _ _ _ _)), len_end. lia. }
    apply (open_classic_views cfg s l es body gap 0 (N.min (len (members ms)) 0xFFFFFFFF) clen rest).
    all: try assumption.
    + rewrite E' at 1. now rewrite <- !app_assoc.
    + lia.
    + lia.
    + lia.
    + intros q Q. specialize (C1 q Q). lia.
    + intros GE Q. specialize (C2 eq_refl _ Q). lia.
Qed.
Lemma archive_opens cfg s d z body ms comment :
  d = body ++ members ms ++ archive_end z (len ms) (len (members ms)) (len body) comment ->
  Forall member_ok (listed z ms) -> (is_over (len body) = true -> z = true) -> end_clear z comment d ->
  len d < 0x10000000000000000 -> s_data s = d -> nofail (s_sched s) -> len (listed z ms) * entry_mem_size cfg <= isize_max ->
  exists f, fst (file cfg s) = Ok f /\ reported_file (listed z ms) z comment f.
Proof.
  intros E MO FA EC LD SD NF MEM. pose proof EC as (LC & _).
  destruct (members_views cfg (listed z ms) MO) as (es & Hv & Hr).
  exists {| f_entries := es; f_zip64 := z; f_comment := zs_new comment EUtf8 |}.
  split; [|split; [exact Hr|split; [reflexivity|apply zs_comment]]].
  rewrite archive_end_head, (N.mod_small (len comment)) in E by lia.
  rewrite (archive_views cfg s d z body ms es (len comment) comment); try assumption; [|lia].
  now rewrite take_all.
Qed.
