(** Sequences of steps, however each of them was made, leave an archive of the same shape as a sequence of calls. *)
From Verif Require Import Base BaseFacts Crc32 CrcFacts SpecFormat SpecCrc SpecArchive ZString ZDate Headers HeadersFacts
  ExtraField ExtraFieldFacts Entry IO IOFacts Reader EntryReader Writer WriterFacts WholeFacts StreamFacts SpecRead SpecWrite OpenFacts RecordFacts WriteProofs
  HistFacts CloseFacts EntryProofs ReadProofs RoundTrip TextFacts ArchiveProofs SpecSize SpecImage.
Arguments N.add : simpl never.
Arguments N.sub : simpl never.
Arguments N.min : simpl never.
Arguments N.max : simpl never.

(** a step that did what the call [o] with the outcome [r] does *)
Record linked (cd : codec) (w : world) (o : wop) (r : res unit) (w' : world) : Prop := {
  ln_step : w_offset w = len (w_bytes w) -> len (w_bytes w') < 0x10000000000000000 -> step cd o w r w';
  ln_evol : evol w w';
  ln_force : w_force_no w' = no_after (w_force_no w) o;
  ln_comment : w_comment w' = comment_after (w_comment w) o;
  ln_zip64 : w_zip64 w = true -> w_zip64 w' = true;
  ln_short : cds_short w -> cds_short w';
  ln_same : writes_entry o = false -> dropped o = false -> w_bytes w' = w_bytes w /\ w_cds w' = w_cds w /\ w_zip64 w' = asks_zip64 o || w_zip64 w }.
Inductive chain (cd : codec) : world -> list (wop * res unit) -> world -> Prop :=
| chain_nil w : chain cd w [] w
| chain_cons w o r w1 xs w2 : linked cd w o r w1 -> chain cd w1 xs w2 -> chain cd w ((o, r) :: xs) w2.

Lemma call_linked cd o w : enc_takes cd -> op_good o -> linked cd w o (fst (run_op cd o w)) (snd (run_op cd o w)).
Proof.
  intros T G. pose proof (run_op_step cd o w T G) as S. pose proof (grows_run_op cd o w) as EV. destruct (run_op_keeps cd o w) as (K1 & K2 & K3).
  pose proof (cds_short_run_op cd o w T) as CS.
  assert (SAME : writes_entry o = false -> dropped o = false -> let w1 := snd (run_op cd o w) in w_bytes w1 = w_bytes w /\ w_cds w1 = w_cds w /\ w_zip64 w1 = asks_zip64 o || w_zip64 w).
  { destruct o; try discriminate; try (now repeat split). destruct closed; discriminate. }
  destruct (run_op cd o w) as [r w']. cbn [fst snd] in *. now constructor.
Qed.
Lemma calls_chain cd l : enc_takes cd -> Forall op_good l -> forall w, let '(xs, w') := run_ops cd l w in chain cd w xs w' /\ map fst xs = l.
Proof.
  intro T. induction 1 as [|o l G _ IH]; intro w; cbn [run_ops]; [split; [constructor|reflexivity]|].
  pose proof (call_linked cd o w T G) as L. destruct (run_op cd o w) as [r w1]. specialize (IH w1). destruct (run_ops cd l w1) as [xs w2].
  destruct IH as [C M]. split; [econstructor; [exact L|exact C]|]. cbn [map fst]. now rewrite M.
Qed.
Lemma chain_evol cd w xs w' : chain cd w xs w' -> evol w w'.
Proof. induction 1 as [|w o r w1 xs w2 L _ IH]; [apply evol_refl|]. exact (evol_trans _ _ _ (ln_evol _ _ _ _ _ L) IH). Qed.
Lemma chain_comment cd w xs w' : chain cd w xs w' -> w_comment w' = fold_left comment_after (map fst xs) (w_comment w).
Proof. induction 1 as [|w o r w1 xs w2 L _ IH]; [reflexivity|]. cbn [map fst fold_left]. now rewrite IH, (ln_comment _ _ _ _ _ L). Qed.
Lemma chain_force cd w xs w' : chain cd w xs w' -> w_force_no w' = fold_left no_after (map fst xs) (w_force_no w).
Proof. induction 1 as [|w o r w1 xs w2 L _ IH]; [reflexivity|]. cbn [map fst fold_left]. now rewrite IH, (ln_force _ _ _ _ _ L). Qed.
Lemma chain_short cd w xs w' : chain cd w xs w' -> cds_short w -> cds_short w'.
Proof. induction 1 as [|w o r w1 xs w2 L _ IH]; [auto|]. intro S. apply IH. exact (ln_short _ _ _ _ _ L S). Qed.

Lemma chain_ran cd w xs w' : chain cd w xs w' -> w_offset w = len (w_bytes w) ->
  len (w_bytes w') < 0x10000000000000000 -> exists cs its, ran cd w w' xs cs its.
Proof.
  induction 1 as [w|w o r w1 xs w2 L C0 IH]; intros OF LB.
  { exists [], []. split; try solve [constructor]; try solve [intros; reflexivity]; try tauto.
    - now rewrite app_nil_r.
    - intros _ H H'. lia.
    - cbn [spaced]. lia. }
  destruct L as [S EV KF _ KZ _ _]. pose proof (evol_offset _ _ EV OF) as OF1. pose proof (chain_evol _ _ _ _ C0) as EV2.
  destruct (IH OF1 LB) as (cs & its & [R1 R2 R3 R4 R5 R6 R7 R8 R9]).
  destruct EV2 as ((b & EB & _) & _). rewrite EB, len_app in LB. specialize (S OF ltac:(lia)).
  rewrite KF in R3, R6. destruct S as [C NW TM|c it img WE C B OFF LV EL FN I64 CNT].
  - exists cs, its.
    assert (W : writes_entry o && worked r = false) by (destruct (writes_entry o); [now rewrite NW|reflexivity]).
    rewrite C in *.
    constructor; try assumption.
    + cbn [recorded]. rewrite TM, orb_false_r, W. exact R3.
    + intro Z. rewrite succeeded_cons. cbn [recorded]. rewrite TM, orb_false_r, W. cbn [app]. now apply R6.
    + intros F. inversion F; subst. now apply R7.
    + auto.
    + destruct EV as ((b1 & EB1 & _) & _). apply (spaced_from _ _ (len (w_bytes w1))); [|exact R9]. rewrite EB1, len_app. lia.
  - assert (NA : no_after (w_force_no w) o = w_force_no w) by (destruct o; try reflexivity; discriminate). 
    exists (c :: cs), (it :: its).
    assert (REC : worked r || too_many r = true).
    { destruct ((65535 <? len (w_cds w1)) && w_force_no w); destruct CNT as [-> ?]; [apply orb_true_r|reflexivity]. }
    constructor.
    + rewrite R1, C, <- app_assoc. reflexivity.
    + constructor; [|exact R2]. rewrite EB. apply placed_app. destruct EL as (a & v & f & lx & LO & -> & CB & MO).
      exists a, v, f, lx. split; [exact LO|]. split; [|auto]. exists (w_bytes w), [].
      split; [|now rewrite <- OF]. rewrite B. unfold item_image. now rewrite app_nil_r.
    + cbn [recorded]. rewrite WE, REC. cbn [andb app]. constructor; [exact LV|exact R3].
    + constructor; [|exact R4]. now rewrite (leaves_no64 _ _ _ _ LV).
    + constructor; [auto|exact R5].
    + intro Z. rewrite succeeded_cons. cbn [recorded]. rewrite WE, REC. cbn [andb].
      specialize (R6 Z). assert (LC : len (w_cds w1) = len (w_cds w) + 1) by (rewrite C, len_app; reflexivity).
      rewrite LC in *. cbn [app].
      destruct (N.ltb_spec 65535 (len (w_cds w) + 1)) as [L|L]; cbn [andb] in CNT.
      * replace (65535 - len (w_cds w)) with 0 by lia. replace (65535 - (len (w_cds w) + 1)) with 0 in R6 by lia.
        rewrite take_none in *. destruct (w_force_no w); destruct CNT as [C1 C2].
        -- now rewrite C2.
        -- specialize (R8 (C2 L)). congruence.
      * destruct CNT as [-> _]. rewrite take_cons by lia. cbn [app]. f_equal.
        replace (65535 - len (w_cds w) - 1) with (65535 - (len (w_cds w) + 1)) by lia. exact R6.
    + intros F LE GT. inversion F as [|? ? F1 F2]; subst. cbn [snd] in F1.
      destruct (N.leb_spec (len (w_cds w1)) 65535) as [L|L]; [now apply R7|].
      apply R8. replace (65535 <? len (w_cds w1)) with true in CNT by lia. cbn [andb] in CNT.
      destruct (w_force_no w); destruct CNT as [C1 C2]; [congruence|auto].
    + auto.
    + cbn [spaced]. split; [rewrite OFF, OF; lia|]. destruct EL as (a & v & f & lx & LO & -> & CB & MO). exists a, v, f, lx. split; [exact LO|]. split.
      * exists (w_bytes w), b. split; [|now rewrite OFF, OF]. rewrite EB, B. unfold item_image. now rewrite <- !app_assoc.
      * apply (spaced_from _ _ (len (w_bytes w1))); [|exact R9]. rewrite B, len_app, OFF, OF. lia.
Qed.

Lemma chain_shape cd sched xs w w' : chain cd (zw_new sched) xs w -> zw_close w = (Ok tt, w') -> len (w_bytes w') < 0x10000000000000000 ->
  exists its ms, shape cd (map fst xs) xs (w_bytes w') (w_zip64 w') (w_bytes w) its ms.
Proof.
  intros CH C LB. pose proof (chain_short _ _ _ _ CH ltac:(constructor)) as S. pose proof (chain_comment _ _ _ _ CH) as CM.
  pose proof (chain_force _ _ _ _ CH) as FN. pose proof (evol_offset _ _ (chain_evol _ _ _ _ CH) eq_refl) as OF.
  pose proof (grows_close w) as GR. rewrite C in GR. cbn [snd] in GR.
  assert (LB' : len (w_bytes w) < 0x10000000000000000) by (destruct GR as ((b & B & _) & _); rewrite B, len_app in LB; lia).
  destruct (chain_ran _ _ _ _ CH eq_refl LB') as (cs & its & [R1 R2 R3 R4 R5 R6 R7 R8 R9]).
  apply (close_ok _ _ _ S) in C. cbv zeta in C. destruct C as (B & FA & Z).
  cbn [zw_new w_cds w_force_no w_comment] in *. cbn [app] in R1. subst cs.
  destruct (placed_members _ _ _ R2) as (ms & E & L & F). exists its, ms.
  assert (L' : len (w_cds w) = len ms) by (unfold len; now rewrite L).
  rewrite OF, L', E, CM in B. rewrite OF in Z. rewrite <- Z in B.
  constructor; try assumption.
  - eapply Forall_impl; [|exact R5]. intros it H I. rewrite Z, (H I). reflexivity.
  - intro H. rewrite Z, H, orb_true_r. split; [reflexivity|]. rewrite OF in FA. now rewrite <- FN, FA.
  - intro H. rewrite H in Z. symmetry in Z. apply orb_false_iff in Z as [Z _]. now apply R6.
  - intros H K. rewrite Z, R7; [reflexivity|exact H|cbn; lia|lia].
Qed.

(** ** Reading it back *)
Lemma shape_back cd cfg s l xs d z body its ms : codec_ok cd -> shape cd l xs d z body its ms -> unambiguous cd cfg l xs z d -> s_data s = d -> nofail (s_sched s) ->
  exists f, fst (file cfg s) = Ok f /\ mem_new cfg d = Ok {| m_data := d; m_file := f |} /\ f_zip64 f = z /\
    comment_reads_as (last_comment l) (f_comment f) /\
    Forall2 (fun x st => exists it, leaves cd (fst x) (snd x) it /\ as_written d it st /\ texts_kept it st) (succeeded false xs) (f_entries f) /\
    (forall i no64 o data, nth_error (succeeded false xs) (N.to_nat i) = Some (no64, o) -> holds cd o data ->
       (forall it, leaves cd no64 o it -> straight it) ->
       read_entry cd f i s = Ok data /\ mem_read_entry cd {| m_data := d; m_file := f |} i = Ok data).
Proof.
  intros K SH (L & TM & SC & EC & MEM) SD NF.
  destruct (archive_back _ cfg s _ _ _ _ _ _ _ SH TM SC EC L SD NF MEM) as (f & F & Z & C & F2).
  exists f. split; [exact F|]. split.
  { unfold mem_new. pose proof (file_nofail cfg s NF) as FN. rewrite SD in FN. rewrite <- FN, F. reflexivity. }
  split; [exact Z|]. split; [exact C|]. split.
  - eapply Forall2_weaken; [|exact F2]. cbv beta. intros x st (it & a & L1 & ((v & g & lx & LO & SI) & _) & R1 & W).
    exists it. split; [exact L1|]. split; [exact W|]. intros (S1 & S2 & TC). now apply (texts_back it a v g lx st LO R1).
  - intros i no64 o data N1 HD ST. now apply (archive_read cd xs d _ f i s no64 o data K NF SD F2 N1 HD).
Qed.
