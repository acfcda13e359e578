(** Archives without a comment: when they open. *)
From Verif Require Import Base SpecFormat SpecCrc SpecUtf8 SpecArchive SpecRead SpecWrite SpecSize SpecStrict SpecExact SpecTrouble SpecSpells SpecDirectory ZString ZDate
  Headers ExtraField Entry IO Locator Reader EntryReader Writer BaseFacts IOFacts ReaderFacts RoundTrip ExactProofs TroubleProofs CloseFacts HistFacts Zip64Proofs ArchiveProofs
  ApartProofs SizeProofs RecognizeProofs SpellsProofs.
From Verif Require SpecOrdinary AllWork ChainFacts.

Local Notation sig := (le 4 0x06054b50).
Lemma second_found front c s o i : c < 0x10000 -> s < 0x100000000 -> o < 0x100000000 -> 1 <= i ->
  found_at sig (front ++ end22 c s o) (len front + i) <-> spells_at i c s o.
Proof.
  intros C S O I. rewrite signature_at by reflexivity. replace (drop (len front + i) (front ++ end22 c s o)) with (drop i (end22 c s o)).
  - now apply second_end.
  - rewrite drop_app_ge by lia. f_equal. lia.
Qed.
Lemma spells_near i c s o : spells_at i c s o -> 10 <= i <= 16.
Proof.
  unfold spells_at. intro H. destruct i as [|p]; [contradiction|]. repeat (match goal with q : positive |- _ => destruct q end; try contradiction); clear; lia.
Qed.
Lemma end_alone front c s o : c < 0x10000 -> s < 0x100000000 -> o < 0x100000000 ->
  (forall q, found_at sig (front ++ end22 c s o) q -> q <= len front) <-> ~ spells c s o.
Proof.
  intros C S O. rewrite spells_some. split.
  - intros H (i & X). pose proof (spells_near _ _ _ _ X) as N. apply (second_found front c s o i C S O ltac:(lia)) in X. apply H in X. lia.
  - intros H q F. destruct (N.le_gt_cases q (len front)) as [L|L]; [exact L|exfalso]. apply H. exists (q - len front).
    apply (second_found front c s o (q - len front) C S O ltac:(lia)). now replace (len front + (q - len front)) with q by lia.
Qed.
(** the last one *)
Lemma last_of (P : N -> Prop) : (forall q, P q \/ ~ P q) -> forall n p, P p -> (forall q, P q -> q <= p + N.of_nat n) -> exists a, P a /\ p <= a /\ forall q, P q -> q <= a.
Proof.
  intros D. induction n as [|n IH]; intros p HP B.
  - exists p. split; [exact HP|]. split; [lia|]. intros q Q. specialize (B q Q). lia.
  - destruct (D (p + N.of_nat (S n))) as [Y|Y].
    + exists (p + N.of_nat (S n)). split; [exact Y|]. split; [lia|exact B].
    + apply IH; [exact HP|]. intros q Q. specialize (B q Q). destruct (N.eq_dec q (p + N.of_nat (S n))) as [->|X]; [contradiction|lia].
Qed.
Lemma found_dec d q : found_at sig d q \/ ~ found_at sig d q.
Proof.
  rewrite signature_at by reflexivity. destruct (N.le_gt_cases 4 (len (drop q d))) as [L|L]; [|right; lia].
  destruct (N.eq_dec (from_le (take 4 (drop q d))) 0x06054b50) as [E|E]; [left; now split|right; intros [_ X]; contradiction].
Qed.
Lemma spelled_fails cfg front c s o : c < 0x10000 -> s < 0x100000000 -> o < 0x100000000 -> spells c s o -> end_fails cfg (front ++ end22 c s o) cut_short.
Proof.
  intros C S O H. apply spells_some in H as (i & X). pose proof (spells_near _ _ _ _ X) as N. apply (second_found front c s o i C S O ltac:(lia)) in X.
  assert (LD : len (front ++ end22 c s o) = len front + 22) by (rewrite len_app; reflexivity).
  assert (BD : forall q, found_at sig (front ++ end22 c s o) q -> q <= len front + i + N.of_nat 22).
  { intros q Q. rewrite signature_at in Q by reflexivity. rewrite len_drop, LD in Q. lia. }
  destruct (last_of _ (found_dec _) _ _ X BD) as (a & A & LA & M). apply (ef_cut cfg _ a).
  - split; [exact A|]. split; [exact M|]. rewrite LD. unfold reach. lia.
  - rewrite LD. lia.
Qed.

(** ** Sessions *)
Lemma end_split front z n size off : exists front', front ++ archive_end z n size off [] = front' ++ end22 (N.min n 0xFFFF) (N.min size 0xFFFFFFFF) (N.min off 0xFFFFFFFF).
Proof. unfold archive_end, end22. change (len (@nil byte) mod 0x10000) with 0. rewrite app_nil_r, app_assoc. now eexists. Qed.
Lemma end_told z n size off front : let d := front ++ archive_end z n size off [] in
  end_clear z [] d <-> ~ spelled_by n size off /\ (z = false -> forall q, found_at (le 4 0x07064b50) d q -> q + 42 <> len d).
Proof.
  cbv zeta. destruct (end_split front z n size off) as (front' & ->). unfold spelled_by. rewrite <- (end_alone front') by lia.
  unfold end_clear. rewrite len_app. change (len (@nil byte)) with 0. change (len (end22 _ _ _)) with 22. split.
  - intros (_ & A & B). split; [intros q Q; specialize (A q Q); lia|]. intros Z q Q. specialize (B Z q Q). lia.
  - intros (A & B). split; [lia|]. split; [intros q Q; specialize (A q Q); lia|]. intros Z q Q. specialize (B Z q Q). lia.
Qed.
Lemma end_cut cfg z n size off front s : s_data s = front ++ archive_end z n size off [] -> nofail (s_sched s) -> spelled_by n size off ->
  fst (file cfg s) = Err (UpstreamReadError UnexpectedEof).
Proof.
  intros D NF H. apply (opening_fails cfg s cut_short NF). apply of_end. rewrite D. destruct (end_split front z n size off) as (front' & ->). apply spelled_fails; try lia. exact H.
Qed.

Definition numbers cd l (xs : list (wop * res unit)) d z body records : Prop :=
  d = body ++ records ++ archive_end z (len (recorded false xs)) (len records) (len body) (last_comment l) /\
  (Forall (tame d) (recorded false xs) -> len records = directory_size (recorded false xs)) /\ enc_takes cd.
Lemma record_len cd body d x it a : len body <= len d -> tame d x -> leaves cd (fst x) (snd x) it -> entry_of body it a -> len (member_record a) = record_size (snd x).
Proof.
  intros LB [N64 T] LV [(v & f & lx & LO & SI) _]. pose proof (sits_within _ _ _ _ _ SI) as W. unfold item_image in W. rewrite !len_app in W.
  destruct x as [no64 o]. cbn [fst snd] in *. subst no64.
  destruct LV as [e data z off C|e z off|e b z off C|e b off]; cbn [record_size] in *; cbn [i_off i_data i_stream] in W.
  - destruct T as (U & T1 & T2). refine (proj2 (laid_size _ _ _ _ _ LO U eq_refl _)). intros _. unfold i_big, i_csize, is_over. cbn. lia.
  - destruct T as (U & T1 & T2). refine (proj2 (laid_size _ _ _ _ _ LO U eq_refl _)). intros _. unfold i_big, i_csize, is_over. cbn. lia.
  - refine (proj2 (laid_size _ _ _ _ _ LO T eq_refl _)). discriminate.
  - refine (proj2 (laid_size _ _ _ _ _ LO T eq_refl _)). discriminate.
Qed.
Lemma records_len cd body d : len body <= len d -> forall xs its, Forall2 (fun x it => leaves cd (fst x) (snd x) it) xs its -> forall ms, Forall2 (entry_of body) its ms -> Forall (tame d) xs ->
  len (members ms) = directory_size xs.
Proof.
  intros LB. induction 1 as [|x it xs its L _ IH]; intros ms E T; inversion E as [|? a ? ms' E1 E2]; subst; [reflexivity|]. inversion T; subst.
  unfold members. cbn [map concat directory_size fold_right]. rewrite len_app, (record_len cd body d x it a) by assumption. f_equal. now apply IH.
Qed.
Lemma shape_numbers cd l xs d z body its ms : enc_takes cd -> shape cd l xs d z body its ms -> numbers cd l xs d z body (members ms).
Proof.
  intros T [B IT MS _ _ _ _ _ _].
  assert (E : len ms = len (recorded false xs)).
  { unfold len. now rewrite (Forall2_len _ _ _ IT), (Forall2_len _ _ _ MS). }
  split; [now rewrite <- E|]. split; [|exact T]. intros TM. apply (records_len cd body d) with (its := its); try assumption. rewrite B, len_app. lia.
Qed.
Lemma session_numbers cd sched l : enc_takes cd -> Forall op_good l ->
  let '(xs, r, w) := run_archive cd sched l in
  r = Ok tt -> len (w_bytes w) < 0x10000000000000000 -> exists body records, numbers cd l xs (w_bytes w) (w_zip64 w) body records.
Proof.
  intros T G. pose proof (archive_shape cd sched l T G) as H. destruct (run_archive cd sched l) as [[xs r] w]. intros R L.
  destruct (H R L) as (its & ms & S). eexists _, _. exact (shape_numbers _ _ _ _ _ _ _ _ T S).
Qed.

Lemma shape_commentless cd cfg s l xs d z b0 its ms : codec_ok cd -> shape cd l xs d z b0 its ms -> last_comment l = [] ->
  len d < 0x10000000000000000 -> s_data s = d -> nofail (s_sched s) ->
  exists body records, d = body ++ records ++ archive_end z (len (recorded false xs)) (len records) (len body) [] /\
    (Forall (tame d) (recorded false xs) -> len records = directory_size (recorded false xs)) /\
    (spelled_by (len (recorded false xs)) (len records) (len body) -> fst (file cfg s) = Err (UpstreamReadError UnexpectedEof)) /\
    (~ spelled_by (len (recorded false xs)) (len records) (len body) ->
     (z = false -> forall q, found_at (le 4 0x07064b50) d q -> q + 42 <> len d) ->
     (z = true -> Forall (fun x => too_many (snd x) = false) xs) -> sizes_tell cd d (succeeded false xs) ->
     len (succeeded false xs) * entry_mem_size cfg <= 0x7FFFFFFFFFFFFFFF ->
     exists f, fst (file cfg s) = Ok f /\ f_zip64 f = z /\ zs_raw (f_comment f) = [] /\
       Forall2 (fun x st => exists it, leaves cd (fst x) (snd x) it /\ as_written d it st /\ texts_kept it st) (succeeded false xs) (f_entries f) /\
       (forall i no64 o data, nth_error (succeeded false xs) (N.to_nat i) = Some (no64, o) -> holds cd o data ->
          (forall it, leaves cd no64 o it -> straight it) -> read_entry cd f i s = Ok data)).
Proof.
  intros K SH LC LD SD NF. pose proof (shape_numbers _ _ _ _ _ _ _ _ (proj1 K) SH) as (B & SZ & _).
  pose proof (ChainFacts.shape_back cd cfg s l xs d z b0 its ms K SH) as RB. set (body := b0) in *. set (records := members ms) in *. rewrite LC in *.
  exists body, records. split; [exact B|]. split; [exact SZ|]. rewrite app_assoc in B. split.
  - intro SP. apply (end_cut cfg z (len (recorded false xs)) (len records) (len body) (body ++ records) s); [now rewrite SD|exact NF|exact SP].
  - intros NS NL TM ST ME. pose proof (end_told z (len (recorded false xs)) (len records) (len body) (body ++ records)) as ET. cbv zeta in ET. rewrite <- B in ET.
    assert (EC : end_clear z (last_comment l) d) by (rewrite LC; exact (proj2 ET (conj NS NL))).
    destruct (RB (conj LD (conj TM (conj ST (conj EC ME)))) SD NF) as (f & F1 & _ & F3 & F4 & F5 & F6). exists f.
    split; [exact F1|]. split; [exact F3|]. split; [now destruct F4|]. split; [exact F5|]. intros i no64 o data I HO S. now apply (F6 i no64 o data I HO S).
Qed.
Lemma commentless cd cfg sched s l : codec_ok cd -> Forall op_good l -> last_comment l = [] ->
  let '(xs, r, w) := run_archive cd sched l in
  let d := w_bytes w in
  r = Ok tt -> len d < 0x10000000000000000 -> s_data s = d -> nofail (s_sched s) ->
  exists body records, d = body ++ records ++ archive_end (w_zip64 w) (len (recorded false xs)) (len records) (len body) [] /\
    (Forall (tame d) (recorded false xs) -> len records = directory_size (recorded false xs)) /\
    (spelled_by (len (recorded false xs)) (len records) (len body) -> fst (file cfg s) = Err (UpstreamReadError UnexpectedEof)) /\
    (~ spelled_by (len (recorded false xs)) (len records) (len body) ->
     (w_zip64 w = false -> forall q, found_at (le 4 0x07064b50) d q -> q + 42 <> len d) ->
     (w_zip64 w = true -> Forall (fun x => too_many (snd x) = false) xs) -> sizes_tell cd d (succeeded false xs) ->
     len (succeeded false xs) * entry_mem_size cfg <= 0x7FFFFFFFFFFFFFFF ->
     exists f, fst (file cfg s) = Ok f /\ f_zip64 f = w_zip64 w /\ zs_raw (f_comment f) = [] /\
       Forall2 (fun x st => exists it, leaves cd (fst x) (snd x) it /\ as_written d it st /\ texts_kept it st) (succeeded false xs) (f_entries f) /\
       (forall i no64 o data, nth_error (succeeded false xs) (N.to_nat i) = Some (no64, o) -> holds cd o data ->
          (forall it, leaves cd no64 o it -> straight it) -> read_entry cd f i s = Ok data)).
Proof.
  intros K G LC. pose proof (archive_shape cd sched l (proj1 K) G) as H. destruct (run_archive cd sched l) as [[xs r] w]. cbv zeta in *.
  intros R L. destruct (H R L) as (its & ms & SH). exact (shape_commentless _ _ _ _ _ _ _ _ _ _ K SH LC L).
Qed.

(** ** Sessions that cannot be read *)
Lemma recorded_ok l : Forall (fun o => writes_entry o = true /\ o <> OpForceNoZip64) l -> forall b, recorded b (map (fun o => (o, Ok tt)) l) = map (fun o => (b, o)) l.
Proof.
  induction 1 as [|o l [W N] _ IH]; intro b; [reflexivity|]. cbn [map recorded]. rewrite W. cbn [andb orb worked app]. replace (no_after b o) with b by (now destruct o). now rewrite IH.
Qed.
Lemma directory_app a b : directory_size (a ++ b) = directory_size a + directory_size b.
Proof. unfold directory_size. induction a as [|x a IH]; [reflexivity|]. cbn [app fold_right]. rewrite IH. lia. Qed.
Lemma directory_repeat x n : directory_size (repeat x n) = N.of_nat n * record_size (snd x).
Proof. induction n as [|n IH]; [reflexivity|]. cbn [repeat]. unfold directory_size in *. cbn [fold_right]. rewrite IH. lia. Qed.
Lemma ops_size_app a b : ops_size (a ++ b) = ops_size a + ops_size b.
Proof. unfold ops_size. induction a as [|x a IH]; [reflexivity|]. cbn [app fold_right]. rewrite IH. lia. Qed.
Lemma ops_size_repeat x n : ops_size (repeat x n) = N.of_nat n * op_size x.
Proof. induction n as [|n IH]; [reflexivity|]. cbn [repeat]. unfold ops_size in *. cbn [fold_right]. rewrite IH. lia. Qed.
Lemma map_repeat {A B} (g : A -> B) x n : map g (repeat x n) = repeat (g x) n.
Proof. induction n as [|n IH]; [reflexivity|]. cbn [repeat map]. now rewrite IH. Qed.
Lemma len_repeat {A} (x : A) n : len (repeat x n) = N.of_nat n.
Proof. unfold len. now rewrite repeat_length. Qed.

(** [n] files of one name and [m] of another, all of them empty *)
Definition named (name : bytes) : zentry := entry_new (zs_from_string name) Stored.
Definition crowd (a : bytes) (n : N) (b : bytes) (m : N) : list wop := repeat (OpWhole (named a) []) (N.to_nat n) ++ repeat (OpWhole (named b) []) (N.to_nat m).
Lemma crowd_each (P : wop -> Prop) a n b m : P (OpWhole (named a) []) -> P (OpWhole (named b) []) -> Forall P (crowd a n b m).
Proof. intros A B. apply Forall_app. split; apply Forall_forall; intros o I; apply repeat_spec in I; now subst. Qed.
Lemma crowd_comment a n b m : last_comment (crowd a n b m) = [].
Proof.
  unfold last_comment, crowd. rewrite fold_left_app.
  assert (X : forall e k c, fold_left comment_after (repeat (OpWhole e []) k) c = c) by (intros e k; induction k as [|k IH]; intro c; [reflexivity|apply IH]).
  now rewrite !X.
Qed.
Lemma crowd_unread cd sched a n b m : enc_takes cd -> obliging sched -> len a + 60 <= 65535 -> len b + 60 <= 65535 -> n + m = 0x4b50 ->
  (46 * (n + m) + n * len a + m * len b) mod 0x10000 = 0x0605 ->
  Forall SpecOrdinary.handy (crowd a n b m) /\
  let '(xs, r, w) := run_archive cd sched (crowd a n b m) in
  xs = map (fun o => (o, Ok tt)) (crowd a n b m) /\ r = Ok tt /\
  forall cfg s, s_data s = w_bytes w -> nofail (s_sched s) -> fst (file cfg s) = Err (UpstreamReadError UnexpectedEof).
Proof.
  intros T OB LA LB NM SZ.
  assert (B1 : n * len a <= n * 65535) by (apply N.mul_le_mono_l; lia). assert (B2 : m * len b <= m * 65535) by (apply N.mul_le_mono_l; lia).
  assert (OS : forall x, op_size (OpWhole (named x) []) = 76 + 2 * len x).
  { intro x. unfold op_size, local_size, central_size, extras_size, text_fields. cbn. lia. }
  assert (LO : ops_size (crowd a n b m) = 76 * (n + m) + 2 * (n * len a) + 2 * (m * len b)).
  { unfold crowd. rewrite ops_size_app, !ops_size_repeat, !N2Nat.id, !OS. lia. }
  assert (LC : len (crowd a n b m) = n + m) by (unfold crowd; rewrite len_app, !len_repeat, !N2Nat.id; reflexivity).
  assert (MO : Forall measured_op (crowd a n b m)) by (apply crowd_each; (split; [reflexivity|]); split; constructor).
  assert (NZ : existsb uses_zip64 (crowd a n b m) = false).
  { apply not_true_is_false. intro E. apply existsb_exists in E as (o & I & U). assert (F : Forall (fun o => uses_zip64 o = false) (crowd a n b m)) by (now apply crowd_each).
    rewrite Forall_forall in F. rewrite (F o I) in U. discriminate. }
  assert (H1 : forall x, len x + 60 <= 65535 -> SpecOrdinary.handy (OpWhole (named x) [])).
  { intros x L. split; [discriminate|]. split; [|split; [discriminate|]].
    - split; [|cbn; lia]. split; [|constructor]. repeat split; reflexivity.
    - unfold SpecOrdinary.roomy. cbn [op_entry named entry_new en_extra en_filename en_comment zs_from_string zs_raw stored_bytes zs_alt].
      change (len (spec_extras [])) with 0. change (len (@nil byte)) with 0. lia. }
  assert (HA : Forall SpecOrdinary.handy (crowd a n b m)) by (apply crowd_each; auto). split; [exact HA|].
  pose proof (session_size_ok cd sched _ T OB HA MO ltac:(lia) ltac:(lia)) as AW. pose proof (session_numbers cd sched _ T (AllWork.handy_good _ HA)) as SN.
  destruct (run_archive cd sched (crowd a n b m)) as [[xs r] w]. destruct AW as (-> & -> & LD & _). split; [reflexivity|]. split; [reflexivity|].
  unfold session_size in LD. rewrite NZ, crowd_comment in LD. change (len (@nil byte)) with 0 in LD. intros cfg s SD NF. destruct (SN eq_refl ltac:(lia)) as (body & records & B & RS & _). rewrite crowd_comment in B.
  rewrite recorded_ok in * by (apply crowd_each; now split).
  assert (LR : len records = 46 * (n + m) + n * len a + m * len b).
  { rewrite RS.
    - unfold crowd. rewrite map_app, directory_app, !map_repeat, !directory_repeat, !N2Nat.id. cbn [snd record_size].
      unfold central_size, extras_size, text_fields. cbn. lia.
    - apply Forall_map. apply crowd_each; (split; [reflexivity|]); (split; [split; constructor|]); (split; [cbn; lia|lia]). }
  rewrite app_assoc in B. apply (end_cut cfg (w_zip64 w) (len (map (fun o => (false, o)) (crowd a n b m))) (len records) (len body) (body ++ records)); [now rewrite SD|exact NF|].
  unfold spelled_by. replace (len (map (fun o => (false, o)) (crowd a n b m))) with 0x4b50.
  - left. split; [reflexivity|]. rewrite N.min_l; [now rewrite LR|]. lia.
  - unfold len in *. rewrite map_length. lia.
Qed.
