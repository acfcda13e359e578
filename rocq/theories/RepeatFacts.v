(** Closing on a sink without faults, and histories that write the same small entry many times. *)
From Verif Require Import Base BaseFacts Crc32 CrcFacts ZString ZDate Headers HeadersFacts ExtraField ExtraFieldFacts Entry IO IOFacts
  Locator LocatorFacts Reader EntryReader Writer WriterFacts WholeFacts StreamFacts SpecFormat SpecCrc SpecUtf8 SpecArchive SpecRead SpecWrite
  EntryProofs ReadProofs WriteProofs RecordFacts HistFacts CloseFacts RoundTrip TextFacts ArchiveProofs.
Arguments N.add : simpl never.
Arguments N.sub : simpl never.
Arguments N.mul : simpl never.

(** ** Without faults *)
Lemma puts_calm l : forall w, w_sched w = [] -> puts l w = (Ok tt, match l with [] => w | _ => wrote w (concat l) end).
Proof.
  induction l as [|b l IH]; intros w S; [reflexivity|]. cbn [puts concat]. unfold bind. rewrite (write_all_calm b w S), IH by reflexivity.
  f_equal. destruct l; [cbn [concat]; now rewrite app_nil_r|]. unfold wrote, set_sink. cbn [w_sink w_offset w_cds w_force_no w_zip64 w_comment k_written k_flushes k_closes]. rewrite <- app_assoc, (len_app b). now rewrite N.add_assoc.
Qed.
Lemma cd_entries_calm l : Forall (fun c => fields_count_bytes (en_extra (ce_entry c)) < 65536) l -> forall w, w_sched w = [] ->
  exists w', write_cd_entries l w = (Ok tt, w') /\ w_sched w' = [] /\ w_offset w' = w_offset w + len (concat (map ce_bytes l)) /\
    w_force_no w' = w_force_no w /\ w_zip64 w' = w_zip64 w.
Proof.
  intros F w S. assert (O : exists x w', write_cd_entries l w = (Ok x, w')).
  { revert w S. induction F as [|c l L _ IH]; intros w S; [now exists tt, w|]. cbn [write_cd_entries]. unfold bind at 1.
    unfold write_cd_entry. cbv zeta. destruct (fields_as_bytes_no_panic _ L) as [xb X]. rewrite X.
    unfold bind. unfold lift. rewrite !write_all_calm by first [exact S|reflexivity]. cbv beta iota.
    repeat (rewrite write_all_calm by reflexivity; cbv beta iota). apply IH. reflexivity. }
  destruct O as ([] & w' & O). exists w'. split; [exact O|]. apply (cd_entries_ok _ F) in O as (u & M).
  split; [destruct M as [M _]; rewrite S in M; symmetry in M; now apply app_eq_nil in M|].
  split; [exact (moved_offset _ _ _ _ _ M)|]. split; [exact (moved_force _ _ _ _ _ M)|exact (moved_zip64 _ _ _ _ _ M)].
Qed.
Lemma close_calm w : cds_short w -> w_sched w = [] -> (is_over (w_offset w) && w_force_no w = false) -> fst (zw_close w) = Ok tt.
Proof.
  intros C S O. unfold zw_close. unfold bind at 1. unfold get at 1. cbv beta iota zeta. unfold bind at 1.
  destruct (cd_entries_calm _ C w S) as (w1 & E & S1 & O1 & F1 & Z1). rewrite E. unfold bind at 1. unfold get at 1. cbv beta iota zeta.
  change (NON_ZIP64_MAX_SIZE <? w_offset w) with (is_over (w_offset w)). rewrite F1.
  unfold bind at 1.
  assert (G : exists n w2, (if is_over (w_offset w) then if w_force_no w then fail (Zip64Needed LargeFile)
       else modify (fun w => set_zip64 w true) ;;; ret NON_ZIP64_MAX_SIZE else ret (as_u32 (w_offset w))) w1 = (Ok n, w2) /\ w_sched w2 = []).
  { destruct (is_over (w_offset w)); [|now eexists _, w1]. destruct (w_force_no w); [discriminate|]. eexists _, _. split; [reflexivity|exact S1]. }
  destruct G as (n & w2 & -> & G2). cbv beta iota.
  unfold bind at 1. unfold get at 1. cbv beta iota zeta. unfold bind at 1.
  assert (H : forall (b : bool) (a1 a2 a3 a4 : bytes), exists w3, (if b then write_all a1 ;;; write_all a2 ;;; write_all a3 ;;; write_all a4 else ret tt) w2 = (Ok tt, w3) /\ w_sched w3 = []).
  { intros b a1 a2 a3 a4. destruct b; [|now exists w2]. unfold bind.
    repeat (rewrite write_all_calm by first [exact G2|reflexivity]; cbv beta iota). eexists. split; reflexivity. }
  match goal with |- context [if w_zip64 w2 then write_all ?a1 ;;; write_all ?a2 ;;; write_all ?a3 ;;; write_all ?a4 else _] =>
    destruct (H (w_zip64 w2) a1 a2 a3 a4) as (w3 & -> & S3) end. cbv beta iota.
  unfold bind. repeat (rewrite write_all_calm by first [exact S3|reflexivity]; cbv beta iota).
  destruct (w_comment w2); [|reflexivity]. now rewrite write_all_calm by reflexivity.
Qed.

(** ** The same entry again and again *)
Section Repeat.
Variables (cd : codec) (e : zentry) (d : bytes).
Hypotheses (ST : en_compression e = Stored) (XS : en_extra e = []) (PN : plain_text (en_filename e)) (PC : plain_text (en_comment e))
  (LN : len (zs_raw (en_filename e)) < 0x10000) (LC : len (zs_raw (en_comment e)) < 0x10000)
  (LD : len d <= 0xFFFFFFFF).
Notation op := (OpWhole e d).
Definition step_len : N := 30 + len (zs_raw (en_filename e)) + len d.
Lemma whole_once w : w_sched w = [] -> w_offset w <= 0xFFFFFFFF ->
  exists w', run_op cd op w = ((if (65535 <? len (w_cds w) + 1) && w_force_no w then Err (Zip64Needed TooManyFiles) else Ok tt), w') /\
    w_sched w' = [] /\ w_offset w' = w_offset w + step_len /\ len (w_cds w') = len (w_cds w) + 1 /\ w_force_no w' = w_force_no w /\
    (w_force_no w = true \/ len (w_cds w) + 1 <= 65535 -> w_zip64 w' = w_zip64 w) /\ (w_zip64 w = true -> w_zip64 w' = true).
Proof.
  intros S O. cbn [run_op]. unfold write_entry_whole. cbv zeta. replace (en_compression (set_crc32 (set_uncompressed_size e (len d)) (crc32 d))) with Stored by (symmetry; exact ST).
  rewrite whole_body_eq. cbv zeta. set (e' := set_crc32 (set_uncompressed_size e (len d)) (crc32 d)).
  assert (B : wh_big e' d = false) by (unfold wh_big; change (en_uncompressed_size e') with (len d); unfold over, NON_ZIP64_MAX_SIZE; rewrite (proj2 (N.ltb_ge _ _) LD); reflexivity). rewrite B.
  assert (OV : over (w_offset w) = false) by (unfold over, NON_ZIP64_MAX_SIZE; now apply N.ltb_ge). rewrite OV. cbn [orb andb].
  assert (E2 : wh_e2 e' d (w_offset w) = set_compressed_size e' (len d)) by (unfold wh_e2; cbv zeta; change (wh_big (set_compressed_size e' (len d)) d) with (wh_big e' d); now rewrite B).
  assert (FL : utf8_flag (set_compressed_size e' (len d)) = true).
  { unfold utf8_flag, zs_utf8_no_alt. cbn. destruct PN as [-> ->], PC as [-> ->]. reflexivity. }
  assert (E3 : wh_e3 e' d (w_offset w) = set_compressed_size e' (len d)) by (unfold wh_e3; rewrite E2; unfold add_unicode_fields; now rewrite FL).
  assert (LT : late e' d (w_offset w) = false) by (unfold late; rewrite OV; apply andb_false_r).
  assert (E4 : wh_e4 e' d (w_offset w) = set_compressed_size e' (len d)) by (unfold wh_e4; now rewrite LT, E3).
  assert (BN : basic_bytes (en_filename e) = zs_raw (en_filename e)) by (unfold basic_bytes; destruct PN as [_ ->]; reflexivity).
  assert (BC : basic_bytes (en_comment e) = zs_raw (en_comment e)) by (unfold basic_bytes; destruct PC as [_ ->]; reflexivity).
  assert (XE : en_extra (set_compressed_size e' (len d)) = []) by exact XS.
  assert (NE : en_filename (set_compressed_size e' (len d)) = en_filename e) by reflexivity.
  assert (CE : en_comment (set_compressed_size e' (len d)) = en_comment e) by reflexivity.
  unfold wh_refused. cbv zeta. rewrite E3, XE, NE, CE, BN, BC. change (fields_count_bytes []) with 0. cbn [N.ltb N.compare negb].
  apply N.ltb_lt in LN, LC. rewrite LN, LC. cbn [negb]. rewrite E4, XE. change (fields_count_bytes []) with 0. cbn [N.ltb N.compare].
  assert (WW : wh_world e' d w = w) by (unfold wh_world; now rewrite B, OV). rewrite WW. unfold bind. rewrite puts_calm by exact S.
  change (head_writes (wh_lfh e' d (w_offset w)) (set_compressed_size e' (len d)) ++ [d]) with
    [to_le 4 LFH_SIGNATURE; lfh_as_slice (wh_lfh e' d (w_offset w)); basic_bytes (en_filename e); fields_bytes (en_extra e); d].
  cbn match. rewrite push_and_check_eq. cbv zeta.
  match goal with |- context [concat ?l] => assert (LL : len (concat l) = step_len) end.
  { cbn [concat]. rewrite !len_app, BN, XS. unfold step_len.
    replace (len (lfh_as_slice (wh_lfh e' d (w_offset w)))) with 26 by reflexivity. change (len (to_le 4 LFH_SIGNATURE)) with 4.
    change (len (fields_bytes [])) with 0. change (len (@nil byte)) with 0. lia. }
  match goal with |- context [concat ?l] => set (cc := concat l) in * end.
  match goal with |- context [push_cd ?a ?b] => set (w1 := push_cd a b) end.
  assert (L1 : len (w_cds w1) = len (w_cds w) + 1) by (unfold w1; cbn; rewrite len_app; reflexivity). rewrite L1.
  change NON_ZIP64_MAX_NUM_FILES with 65535.
  assert (O1 : w_offset w1 = w_offset w + step_len) by (rewrite <- LL; reflexivity).
  destruct (65535 <? len (w_cds w) + 1) eqn:C; cbn [andb].
  - destruct (w_force_no w) eqn:F.
    + exists w1. split; [reflexivity|]. split; [reflexivity|]. split; [exact O1|]. split; [exact L1|]. split; [exact F|]. split; intros; [reflexivity|assumption].
    + exists (set_zip64 w1 true). split; [reflexivity|]. split; [reflexivity|]. split; [exact O1|]. split; [exact L1|]. split; [exact F|]. split; [|reflexivity]. apply N.ltb_lt in C. intros [?|?]; [discriminate|lia].
  - exists w1. split; [reflexivity|]. split; [reflexivity|]. split; [exact O1|]. split; [exact L1|]. split; [reflexivity|]. split; intros; [reflexivity|assumption].
Qed.
Lemma whole_many n : forall w, w_sched w = [] -> w_offset w + N.of_nat n * step_len <= 0xFFFFFFFF -> len (w_cds w) + N.of_nat n <= 65535 ->
  exists w', run_ops cd (repeat op n) w = (repeat (op, Ok tt) n, w') /\
    w_sched w' = [] /\ w_offset w' = w_offset w + N.of_nat n * step_len /\ len (w_cds w') = len (w_cds w) + N.of_nat n /\ w_force_no w' = w_force_no w /\
    w_zip64 w' = w_zip64 w.
Proof.
  induction n as [|n IH]; intros w S O C.
  - exists w. split; [reflexivity|]. split; [exact S|]. ands; try easy; lia.
  - destruct (whole_once w S) as (w1 & R & S1 & O1 & C1 & F1 & Z1 & Z1'); [lia|].
    destruct (65535 <? len (w_cds w) + 1) eqn:X; [apply N.ltb_lt in X; lia|]. cbn [andb] in R.
    destruct (IH w1 S1) as (w2 & R2 & S2 & O2 & C2 & F2 & Z2).
    + rewrite O1. nia.
    + rewrite C1. lia.
    + exists w2. cbn [repeat run_ops]. rewrite R, R2. split; [reflexivity|]. split; [exact S2|]. split; [rewrite O2, O1; nia|].
      split; [rewrite C2, C1; lia|]. split; [congruence|]. rewrite Z2. apply Z1. right. lia.
Qed.
End Repeat.

Lemma run_ops_app cd a b w :
  run_ops cd (a ++ b) w = let '(xs, w1) := run_ops cd a w in let '(ys, w2) := run_ops cd b w1 in (xs ++ ys, w2).
Proof.
  revert w. induction a as [|o a IH]; intro w; cbn [app run_ops].
  - now destruct (run_ops cd b w).
  - destruct (run_op cd o w) as [x w1]. rewrite IH. destruct (run_ops cd a w1) as [xs w2]. now destruct (run_ops cd b w2).
Qed.
Lemma recorded_repeat fn o n : writes_entry o = true -> no_after fn o = fn -> recorded fn (repeat (o, Ok tt) n) = repeat (fn, o) n.
Proof. intros W F. induction n as [|n IH]; [reflexivity|]. cbn [repeat recorded]. rewrite W, F, IH. reflexivity. Qed.
Lemma succeeded_repeat fn o n : writes_entry o = true -> no_after fn o = fn -> succeeded fn (repeat (o, Ok tt) n) = repeat (fn, o) n.
Proof. intros W F. induction n as [|n IH]; [reflexivity|]. cbn [repeat succeeded]. rewrite W, F, IH. reflexivity. Qed.
Lemma no_after_repeat fn o n : no_after fn o = fn -> fold_left no_after (repeat o n) fn = fn.
Proof. intro F. induction n as [|n IH]; [reflexivity|]. cbn [repeat fold_left]. now rewrite F. Qed.
Lemma recorded_app xs : forall fn ys, recorded fn (xs ++ ys) = recorded fn xs ++ recorded (fold_left no_after (map fst xs) fn) ys.
Proof. induction xs as [|[o r] xs IH]; intros; [reflexivity|]. cbn [app recorded map fold_left fst]. now rewrite IH, <- app_assoc. Qed.
Lemma succeeded_app xs : forall fn ys, succeeded fn (xs ++ ys) = succeeded fn xs ++ succeeded (fold_left no_after (map fst xs) fn) ys.
Proof. induction xs as [|[o r] xs IH]; intros; [reflexivity|]. cbn [app succeeded map fold_left fst]. now rewrite IH, <- app_assoc. Qed.

Section Repeat2.
Variables (cd : codec) (e : zentry).
Hypotheses (ST : en_compression e = Stored) (XS : en_extra e = []) (PN : plain_text (en_filename e)) (PC : plain_text (en_comment e)).
Definition rec_len : N := 46 + len (zs_raw (en_filename e)) + len (zs_raw (en_comment e)).
Lemma small_record no64 it body a : leaves cd no64 (OpWhole e []) it -> is_over (i_off it) = false -> entry_of body it a ->
  len (member_record a) = rec_len.
Proof.
  intros L OV ((v & f & lx & LO & _) & _).
  assert (I : i_stream it = false /\ i_entry it = e /\ i_big it = false).
  { remember (OpWhole e []) as o. destruct L as [e0 data z off C|e0 z off|e0 b z off C|e0 b off]; try discriminate. injection Heqo as -> Ed.
    split; [reflexivity|]. split; [reflexivity|]. unfold i_big, i_csize. cbn [i_usize i_data]. destruct C as [content _|]; [now rewrite Ed|congruence]. }
  destruct I as (I1 & I2 & I3).
  assert (LZ : local_zip64 it = []) by (unfold local_zip64; now rewrite I1, I3).
  assert (E64 : in64 it = false /\ off64 it = false) by (unfold in64, off64; now rewrite I1, I3, OV).
  destruct E64 as [E1 E2].
  assert (LX : lx = []).
  { pose proof (lo_local _ _ _ _ _ LO) as T. rewrite I2, XS, LZ in T. cbn [app] in T. remember (@nil extra_field) as xs.
    destruct T as [xs P1 P2|xs ys zs NP _ _]; [easy|]. now elim NP. }
  assert (AZ : a_zip64 a = []).
  { unfold a_zip64. now rewrite (lo_u64 _ _ _ _ _ LO), (lo_c64 _ _ _ _ _ LO), (lo_o64 _ _ _ _ _ LO), (lo_d64 _ _ _ _ _ LO), E1, E2. }
  assert (AX : a_extras a = []).
  { destruct (lo_extras _ _ _ _ _ LO) as (b & t & EL & B & A). rewrite LX, LZ in EL. symmetry in EL. apply app_eq_nil in EL as [-> EL]. cbn in EL. subst t.
    unfold a_extras. rewrite AZ, B, A, E1, E2. reflexivity. }
  unfold member_record. rewrite AX, (lo_name _ _ _ _ _ LO), (lo_comment _ _ _ _ _ LO). unfold i_name, i_comment, stored_bytes. rewrite I2.
  destruct PN as [_ ->], PC as [_ ->]. rewrite !len_app.
  match goal with |- len ?h + _ = _ => change (len h) with 46 end. change (len (spec_extras [])) with 0. unfold rec_len. lia.
Qed.
End Repeat2.
