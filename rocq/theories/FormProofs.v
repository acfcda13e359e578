(** What is found in the archive of an upload. *)
From Verif Require Import Base BaseFacts SpecUtf8 SpecFormat SpecArchive SpecRead SpecWrite SpecSize SpecOrdinary SpecSpells SpecDirectory Utf8 ZString ZDate Headers ExtraField
  Entry IO IOFacts Reader EntryReader Writer AllWork Compress Multipart SpecMultipart MultipartProofs.
From Verif Require Import WriterFacts WholeFacts RecordFacts SpecOutcome StreamOutcome HistFacts CloseFacts OrdinaryProofs SizeProofs CommentlessProofs.
From Verif Require RoundTrip BackProofs.

Lemma deposits_comment sanitize u : forall ys k, last_comment (deposits sanitize u k ys) = [].
Proof. unfold last_comment. induction ys as [|y ys IH]; intros k; [reflexivity|]. exact (IH (k + 1)). Qed.
Lemma deposits_each (P : wop -> Prop) sanitize u : (forall k y, P (deposit sanitize u k y true)) -> forall ys k, Forall P (deposits sanitize u k ys).
Proof. intros H. induction ys as [|y ys IH]; intros k; [constructor|]. cbn [deposits]. now constructor. Qed.
Lemma deposits_directory sanitize u : forall ys k, directory_size (map (fun o => (false, o)) (deposits sanitize u k ys)) = parts_directory sanitize u k ys.
Proof.
  induction ys as [|y ys IH]; intros k; [reflexivity|]. cbn [deposits map parts_directory]. unfold directory_size in *. cbn [fold_right snd]. rewrite IH.
  cbn [deposit record_size]. unfold central_size, extras_size, text_fields. cbn. lia.
Qed.
Lemma form_read cd cfg sched sanitize u s l w : codec_ok cd -> good_names sanitize u -> holdings l < 0x10000000000000000 ->
  create_archive cd sched sanitize u true true l = (Done tt, Some w) ->
  len (w_bytes w) < 0x10000000000000000 -> s_data s = w_bytes w -> nofail (s_sched s) ->
  exists ys, l = received ys /\
    let size := parts_directory sanitize u 0 ys in
    (spelled_by (len ys) size (len (w_bytes w) - size - 98) -> fst (file cfg s) = Err (UpstreamReadError UnexpectedEof)) /\
    (~ spelled_by (len ys) size (len (w_bytes w) - size - 98) -> len ys * entry_mem_size cfg <= 0x7FFFFFFFFFFFFFFF ->
     exists f, fst (file cfg s) = Ok f /\ len (f_entries f) = len ys /\
       forall i y, nth_error ys (N.to_nat i) = Some y ->
         read_entry cd f i s = Ok (concat (snd y)) /\
         exists e, entry_at f i = Some e /\ zs_as_str (en_filename (st_entry e)) = Ok (known_as sanitize u i y)).
Proof.
  intros CO G L CA L2 D NF. destruct (kept _ _ _ _ _ _ _ _ CA) as (ys & -> & RA). exists ys. split; [reflexivity|]. cbv zeta.
  pose proof (deposits_handy sanitize u G ys 0 L) as HA. pose proof (handy_good _ HA) as GO.
  assert (WO : Forall (fun o => writes_entry o = true /\ o <> OpForceNoZip64) (deposits sanitize u 0 ys)) by (apply deposits_each; now split).
  assert (TM : Forall (fun x => too_many (snd x) = false) (map (fun o => (o, Ok tt)) (deposits sanitize u 0 ys))).
  { apply Forall_map, Forall_forall. reflexivity. }
  pose proof (commentless cd cfg sched s (deposits sanitize u 0 ys) CO GO (deposits_comment sanitize u ys 0)) as CL.
  pose proof (archive_shape cd sched (deposits sanitize u 0 ys) (proj1 CO) GO) as SH. rewrite RA in *. cbv zeta in *.
  destruct (CL eq_refl L2 D NF) as (body & records & B & SZ & SPL & OPN). destruct (SH eq_refl L2) as (its & ms & S). clear CL SH.
  rewrite recorded_ok in * by exact WO.
  assert (LN : len (map (fun o => (false, o)) (deposits sanitize u 0 ys)) = len ys) by (rewrite <- (len_deposits sanitize u ys 0); unfold len; now rewrite map_length).
  rewrite LN in *.
  assert (LR : len records = parts_directory sanitize u 0 ys).
  { rewrite SZ; [apply deposits_directory|]. apply Forall_map, deposits_each. intros k y. split; [reflexivity|]. split; constructor. }
  assert (LB : len body = len (w_bytes w) - parts_directory sanitize u 0 ys - 98 /\ (w_zip64 w = false -> len (w_bytes w) < 42)).
  { destruct S as [SB SI SM _ SZ' _ _ _ _]. rewrite (recorded_ok _ WO false) in SI. destruct ys as [|y ys'].
    - cbn [deposits map] in SI. inversion SI; subst its. inversion SM; subst ms. cbn [deposits] in SB. rewrite SB. unfold archive_end.
      change (w_bytes (snd (run_ops cd [] (zw_new sched)))) with (@nil byte) in *. cbn [parts_directory] in *. rewrite B in SB. rewrite LR in SB.
      assert (X : len (body ++ records ++ archive_end (w_zip64 w) (len (@nil (option bytes * list bytes))) 0 (len body) []) = 22 + if w_zip64 w then 76 else 0).
      { rewrite SB. unfold archive_end. destruct (w_zip64 w); reflexivity. }
      rewrite !len_app in X. unfold archive_end in X. rewrite !len_app, len_end in X. change (len (@nil byte)) with 0 in X.
      destruct (w_zip64 w); cbn [app len length] in *; rewrite ?len_app, ?len_end64, ?len_loc64 in X; cbn; split; try discriminate; try lia.
    - assert (Z : w_zip64 w = true).
      { cbn [deposits map] in SI. inversion SI as [|x it xs its' LV _]; subst its. cbn [fst snd deposit] in LV. apply Forall_inv in SZ'. apply SZ'.
        inversion LV; subst. reflexivity. }
      split; [|rewrite Z; discriminate]. rewrite B, !len_app, LR, Z. unfold archive_end. rewrite !len_app, len_end, len_end64, len_loc64. change (len (@nil byte)) with 0. lia. }
  destruct LB as [LB Z]. rewrite LR, LB in *. split; [exact SPL|]. intros NS ME.
  rewrite (succeeded_all _ HA), all_write in OPN. destruct (OPN NS) as (f & F1 & _ & _ & F5 & F6).
  - intros ZF q FD E. specialize (Z ZF). lia.
  - intros _. exact TM.
  - right. apply Forall_map, deposits_each. intros k y it LV. cbn [fst snd deposit] in LV. intro IS. inversion LV; subst; discriminate IS.
  - rewrite LN. exact ME.
  - exists f. split; [exact F1|]. split. { rewrite <- LN. unfold len. now rewrite (RoundTrip.Forall2_len _ _ _ F5). }
    intros i y Y. pose proof (nth_deposits sanitize u ys 0 _ y Y) as ND. rewrite N2Nat.id, N.add_0_l in ND.
    assert (NM : nth_error (map (fun o => (false, o)) (deposits sanitize u 0 ys)) (N.to_nat i) = Some (false, deposit sanitize u i y true)) by (rewrite nth_error_map, ND; reflexivity).
    split.
    + assert (HO : holds cd (deposit sanitize u i y true) (concat (snd y))).
      { replace (concat (snd y)) with (fed_bytes (map SWriteAll (snd y))); [apply holds_stream|]. unfold fed_bytes. rewrite map_map. now rewrite map_id. }
      apply (F6 i _ _ _ NM HO). intros it LV. apply leaves_no64 in LV. unfold straight, i_swapped. rewrite LV, andb_false_r. discriminate.
    + destruct (BackProofs.nth_both' F5 (N.to_nat i) _ NM) as (e & E1 & it & LV & AS & TK). exists e. split; [exact E1|]. cbn [fst snd] in LV.
      apply leaves_entry in LV. cbn [deposit op_entry] in LV. injection LV as LV.
      destruct TK as ((N1 & N2 & _) & _).
      { rewrite <- LV. split; [|split; [|left; now repeat split]]; (split; [intros _|discriminate]); [|exists []; now split].
        change (SpecUtf8.is_utf8 (known_as sanitize u i y)). unfold known_as. destruct G as [G1 G2]. destruct (fst y); [apply G1|apply G2]. }
      rewrite <- LV in N1, N2. unfold zs_as_str. rewrite (N2 eq_refl), N1. reflexivity.
Qed.

(** ** A form too long by coincidence *)
Lemma deposit_bound cd sanitize u k y w B : enc_takes cd -> handy (deposit sanitize u k y true) -> w_force_no w = false -> w_sched w = [] ->
  (forall z, compressed cd Deflate (fed_bytes (map SWriteAll (snd y))) z -> len z <= B) ->
  let '(r, w') := run_op cd (deposit sanitize u k y true) w in
  len (w_bytes w') <= len (w_bytes w) + B + 140000 /\ w_force_no w' = false /\ w_sched w' = [].
Proof.
  intros T H FN CS HZ. pose proof H as (_ & (EF & _) & ND & R). unfold op_fine in EF. unfold deposit in *. set (e := entry_new _ _) in *. set (body := map SWriteAll (snd y)) in *.
  cbn [op_entry] in R, EF. assert (PC : false = true \/ en_compression e <> Deflate64) by (right; discriminate).
  destruct (streamed cd false e body w T EF PC CS) as (it & v & flag & lx & LV & IO & TX & _ & OUT).
  pose proof (grows_run_op cd (OpStream false e body true) w) as EV. pose proof (run_op_keeps cd (OpStream false e body true) w) as K. cbv zeta in K.
  destruct (run_op cd (OpStream false e body true) w) as [r w']. cbn [fst snd] in *. destruct K as (KF & _ & _). destruct EV as (_ & _ & _ & (q & Q)).
  split; [|split; [rewrite KF, FN; reflexivity|rewrite CS in Q; symmetry in Q; now apply app_eq_nil in Q]].
  assert (LZ : i_entry it = e /\ i_stream it = true /\ i_no64 it = false /\ len (i_data it) <= B).
  { rewrite FN in LV. inversion LV as [| |e0 b0 z o CM|e0 b0 o]; subst. repeat (split; [reflexivity|]). now apply HZ. }
  destruct LZ as (E1 & E2 & E3 & E4). pose proof (roomy_short e it flag lx R TX) as LX.
  unfold stream_outcome in OUT. rewrite E3 in OUT. cbn [andb negb] in OUT. unfold i_name, i_comment in OUT. rewrite E1 in OUT. destruct R as (_ & R1 & R2).
  replace (65535 <? len (spec_extras lx)) with false in OUT by lia. replace (65527 <? len (spec_extras lx)) with false in OUT by lia.
  replace (65535 <? len (stored_bytes (en_filename e))) with false in OUT by lia.
  replace (65535 <? len (stored_bytes (en_comment e))) with false in OUT by lia.
  destruct OUT as (-> & _). rewrite !len_app, local_image_len, descriptor_image_len by exact E2. unfold i_name. rewrite E1. lia.
Qed.
Lemma deposits_bound cd sanitize u B : enc_takes cd -> forall ys k w, Forall handy (deposits sanitize u k ys) -> w_force_no w = false -> w_sched w = [] ->
  (forall y z, In y ys -> compressed cd Deflate (fed_bytes (map SWriteAll (snd y))) z -> len z <= B) ->
  len (w_bytes (snd (run_ops cd (deposits sanitize u k ys) w))) <= len (w_bytes w) + len ys * (B + 140000).
Proof.
  intros T. induction ys as [|y ys IH]; intros k w H FN CS HZ; [cbn; lia|]. cbn [deposits run_ops] in *. inversion H as [|? ? H1 H2]; subst.
  pose proof (deposit_bound cd sanitize u k y w B T H1 FN CS (fun z => HZ y z (or_introl eq_refl))) as D.
  destruct (run_op cd (deposit sanitize u k y true) w) as [r w1]. destruct D as (D1 & D2 & D3).
  specialize (IH (k + 1) w1 H2 D2 D3 (fun y' z I => HZ y' z (or_intror I))). destruct (run_ops cd (deposits sanitize u (k + 1) ys) w1) as [xs w2]. cbn [snd] in *.
  rewrite len_cons. lia.
Qed.
Lemma received_same ys : forall ys', received ys = received ys' -> ys = ys'.
Proof.
  induction ys as [|[n c] ys IH]; intros [|[n' c'] ys'] E; try discriminate E; [reflexivity|]. cbn [received map fst snd] in E. injection E as E1 E2 E3. subst n'.
  f_equal; [f_equal|now apply IH]. clear - E2. revert c' E2. induction c as [|b c IH]; intros [|b' c'] E; try discriminate E; [reflexivity|]. cbn in E. injection E as -> E. now rewrite (IH _ E).
Qed.
Lemma form_small cd sanitize u ys B : enc_takes cd -> good_names sanitize u -> holdings (received ys) < 0x10000000000000000 -> len ys * (B + 140000) < 0x8000000000000000 ->
  parts_directory sanitize u 0 ys < 0x1000000000000000 ->
  (forall y z, In y ys -> compressed cd Deflate (fed_bytes (map SWriteAll (snd y))) z -> len z <= B) ->
  exists w, create_archive cd [] sanitize u true true (received ys) = (Done tt, Some w) /\ len (w_bytes w) < 0x10000000000000000.
Proof.
  intros T G L LB LP HZ. pose proof (deposits_handy sanitize u G ys 0 L) as HA. pose proof (form_outcome cd [] sanitize u true true (received ys) T ltac:(constructor) G L) as FO.
  destruct (create_archive cd [] sanitize u true true (received ys)) as [r ow] eqn:CA. destruct FO as (_ & _ & FO). specialize (FO eq_refl (ex_intro _ ys eq_refl)). subst r.
  assert (OW : exists w, ow = Some w).
  { unfold create_archive in CA. cbn [negb] in CA. cbn match in CA. destruct (write_parts cd sanitize u 0 (received ys) (zw_new [])) as [[[]| | |] w1]; try discriminate CA.
    destruct (zw_close w1) as [[[]| |] w2]; try discriminate CA. injection CA as <-. now exists w2. }
  destruct OW as (w & ->). exists w. split; [reflexivity|]. destruct (kept _ _ _ _ _ _ _ _ CA) as (ys' & E & RA).
  apply received_same in E. subst ys'. pose proof (deposits_bound cd sanitize u B T ys 0 (zw_new []) HA eq_refl eq_refl HZ) as DB. change (len (w_bytes (zw_new []))) with 0 in DB.
  pose proof (body_shape cd [] (deposits sanitize u 0 ys) T (handy_good _ HA)) as SH. rewrite RA in SH. specialize (SH eq_refl). assert (XX : len (w_bytes (snd (run_ops cd (deposits sanitize u 0 ys) (zw_new [])))) < 0x10000000000000000). { clear SH. lia. }
  destruct (SH XX) as (its & ms & [SB SI SM _ _ _ _ _ _]). clear SH.
  rewrite recorded_ok in SI by (apply deposits_each; now split).
  assert (BW : len (w_bytes (snd (run_ops cd (deposits sanitize u 0 ys) (zw_new [])))) <= len (w_bytes w)) by (rewrite SB, len_app; lia).
  rewrite SB, !len_app, archive_end_len, deposits_comment. rewrite (records_len cd _ (w_bytes w) BW _ _ SI _ SM).
  - rewrite deposits_directory. change (len (@nil byte)) with 0. destruct (w_zip64 w); lia.
  - apply Forall_map, deposits_each. intros k y. split; [reflexivity|]. split; constructor.
Qed.

Lemma holdings_bare n m : holdings (received (repeat (n, []) m)) = 0.
Proof. induction m as [|m IH]; [reflexivity|]. cbn [repeat]. exact IH. Qed.
Lemma received_app a b : received (a ++ b) = received a ++ received b.
Proof. unfold received. apply map_app. Qed.
Lemma parts_repeat sanitize u n c ys : forall m k, parts_directory sanitize u k (repeat (Some n, c) m ++ ys) =
  N.of_nat m * (74 + len (sanitize n)) + parts_directory sanitize u (k + N.of_nat m) ys.
Proof.
  induction m as [|m IH]; intro k.
  - cbn [repeat app]. rewrite N.add_0_r. lia.
  - cbn [repeat app parts_directory]. rewrite IH. cbn [known_as fst]. replace (k + 1 + N.of_nat m) with (k + N.of_nat (S m)) by lia. lia.
Qed.
