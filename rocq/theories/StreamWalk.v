(** Reading an archive this crate wrote front to back. *)
From Verif Require Import Base BaseFacts SpecFormat SpecCrc SpecArchive SpecRead SpecWrite Crc32 CrcFacts ZString ZDate Headers HeadersFacts
  ExtraField ExtraFieldFacts Entry IO IOFacts Reader ReaderFacts EntryReader Writer WriterFacts WriteProofs OpenFacts LfhFacts EntryReaderFacts EntryProofs ReadProofs
  StreamReader RecordFacts HistFacts CloseFacts TextFacts ArchiveProofs Samples SpecStream StreamProofs.
Arguments N.add : simpl never.
Arguments N.sub : simpl never.
Arguments N.min : simpl never.
Arguments N.mul : simpl never.

(** ** The local header *)
Lemma local_header_mod v fl m t dt crc cs us nl xl :
  local_header v fl m t dt crc cs us nl xl = local_header v fl m t dt crc (cs mod 0x100000000) (us mod 0x100000000) nl xl.
Proof.
  assert (M : forall x, le 4 (x mod 0x100000000) = le 4 x).
  { intro x. rewrite !le_to_le. exact (to_le_mod 4 x). }
  unfold local_header, record. cbn [map concat fst snd]. now rewrite !M.
Qed.

Lemma heard_either l : Forall (fun x => match x with XZip64 _ => spec_payload x <> [] | _ => True end) l ->
  l = heard l \/ exists id sz, l = heard l ++ [XUnknown id sz []].
Proof.
  intro F. unfold heard. destruct (rev l) as [|x r] eqn:E.
  { left. apply (f_equal (@rev _)) in E. now rewrite rev_involutive in E. }
  assert (E' : l = rev r ++ [x]) by (apply (f_equal (@rev _)) in E; now rewrite rev_involutive in E).
  destruct (spec_payload x) as [|b p] eqn:Ep; [right|now left].
  assert (I : In x l) by (rewrite E'; apply in_or_app; right; now left).
  rewrite Forall_forall in F. specialize (F _ I).
  destruct x as [z|[]|[]|id sz c]; try discriminate.
  - now rewrite Ep in F.
  - cbn in Ep. subst c. exists id, sz. exact E'.
Qed.
Lemma heard_name l n f : Forall (fun x => match x with XZip64 _ => spec_payload x <> [] | _ => True end) l ->
  detect_filename n f (heard l) = detect_filename n f l.
Proof.
  intro F. unfold detect_filename. destruct (heard_either l F) as [E|(id & sz & E)]; [now rewrite <- E|].
  rewrite E at 2. now rewrite find_path_unknown.
Qed.
Lemma heard_z64 l : Forall (fun x => match x with XZip64 _ => spec_payload x <> [] | _ => True end) l ->
  get_zip64_extra_field (heard l) = get_zip64_extra_field l.
Proof.
  intro F. destruct (heard_either l F) as [E|(id & sz & E)]; [now rewrite <- E|]. rewrite E at 2. now rewrite zip64_unknown.
Qed.

Definition item_fine (it : item) : Prop :=
  entry_fine (i_entry it) /\ i_crc it < 0x100000000 /\ i_usize it < 0x10000000000000000 /\ i_csize it < 0x10000000000000000 /\
  i_off it < 0x10000000000000000.

(** the sizes in the local header *)
Definition head_csize (it : item) : N :=
  if i_stream it then if negb (i_no64 it) then 0xFFFFFFFF else en_compressed_size (i_entry it)
  else if i_big it then 0xFFFFFFFF else i_csize it.
Definition head_usize (it : item) : N :=
  if i_stream it then if negb (i_no64 it) then 0xFFFFFFFF else en_uncompressed_size (i_entry it)
  else if i_big it then 0xFFFFFFFF else i_usize it.

Lemma local_wt it : item_fine it -> Forall field_wt (local_zip64 it).
Proof.
  intros (((_&_&_&U&C&_)&_)&_&Hu&Hc&Ho). unfold local_zip64, zip64_extra.
  destruct (i_stream it), (i_no64 it), (i_big it), (is_over (i_off it)); repeat constructor; assumption.
Qed.
Lemma local_consistent it : Forall (field_consistent (head_usize it mod 0x100000000) (head_csize it mod 0x100000000)) (local_zip64 it).
Proof.
  unfold local_zip64, head_usize, head_csize. destruct (i_stream it), (i_no64 it); cbn [negb]; try constructor; try (destruct (i_big it));
  repeat constructor; try easy.
Qed.
Lemma plain_no64 x : plain_field x -> match x with XZip64 _ => spec_payload x <> [] | _ => True end.
Proof. destruct x; [easy|..]; trivial. Qed.
Lemma local_full it : Forall (fun x => match x with XZip64 _ => spec_payload x <> [] | _ => True end) (local_zip64 it).
Proof.
  unfold local_zip64, zip64_extra. destruct (i_stream it), (i_no64 it), (i_big it), (is_over (i_off it)); repeat constructor; discriminate.
Qed.

Lemma local_parse cfg it a v f lx : laid_out it a v f lx -> item_fine it ->
  parse_extra_fields cfg (spec_extras lx) (head_usize it mod 0x100000000) (head_csize it mod 0x100000000) = Ok (heard lx) /\
  (forall n, detect_filename n f (heard lx) = detect_filename n f lx) /\
  get_zip64_extra_field (heard lx) = get_zip64_extra_field (local_zip64 it).
Proof.
  intros LO IF. pose proof (local_wt it IF) as W. pose proof (local_consistent it) as C. destruct IF as ((_ & Pl) & _).
  destruct (texts_split _ _ _ _ _ _ (in_local it) Pl (lo_local _ _ _ _ _ LO)) as (b & t & E & Pb & Pt).
  destruct (lo_fits _ _ _ _ _ LO) as (_ & _ & L & _).
  assert (FF : Forall (fun x => match x with XZip64 _ => spec_payload x <> [] | _ => True end) lx).
  { rewrite E, !Forall_app. ands; [eapply Forall_impl; [|exact Pb]; intros; now apply plain_no64|apply local_full|
      eapply Forall_impl; [|exact Pt]; intros; now apply plain_no64]. }
  split; [|split].
  - rewrite spec_extras_eq in *. rewrite heard_eq. apply parse_fields_image_any.
    + rewrite E, !Forall_app. ands; [eapply Forall_impl; [|exact Pb]; intros; now apply plain_field_wt|exact W|
        eapply Forall_impl; [|exact Pt]; intros; now apply plain_field_wt].
    + rewrite E, !Forall_app. ands; [eapply Forall_impl; [|exact Pb]; intros; now apply plain_consistent|exact C|
        eapply Forall_impl; [|exact Pt]; intros; now apply plain_consistent].
    + apply Forall_forall. intros x Hin. apply len_image_field in Hin. lia.
  - intro n. now apply heard_name.
  - rewrite heard_z64 by easy. rewrite E, zip64_of_plain by easy.
    assert (N : get_zip64_extra_field t = None) by (rewrite <- (app_nil_r t); rewrite zip64_of_plain by easy; reflexivity).
    unfold local_zip64, zip64_extra. destruct (i_stream it), (i_no64 it), (i_big it); try exact N; reflexivity.
Qed.

Lemma needs_bound e v : needs e v -> v < 65536.
Proof. intros [[_ ->]|[_ ->]]; destruct (en_compression e); cbn; lia. Qed.

Lemma local_next cfg s d p it a v f lx y : laid_out it a v f lx -> item_fine it ->
  (i_stream it = true -> en_compression (i_entry it) <> Stored) ->
  stands s d p -> drop p d = local_image it v f lx ++ y ->
  exists z s', stream_next cfg s = (Ok (Some {| rd_reader := er_new s' (en_compression (i_entry it)) (if i_stream it then u64_max else i_csize it);
      rd_entry := z; rd_descriptor := i_stream it |}), s') /\
    stands s' d (p + len (local_image it v f lx)) /\ shown it z.
Proof.
  intros LO IF NS (<- & <- & N) D. destruct (local_parse cfg it a v f lx LO IF) as (PX & PN & PZ).
  destruct (lo_fits _ _ _ _ _ LO) as (L1 & _ & L2 & _). pose proof (needs_bound _ _ (lo_version _ _ _ _ _ LO)) as VB.
  pose proof IF as (((Wd&Wt&Wc&_)&_)&Hcrc&_).
  set (crc := if i_stream it then en_crc32 (i_entry it) else i_crc it).
  assert (HC : crc < 4294967296) by (unfold crc; now destruct (i_stream it)).
  assert (EI : local_image it v f lx = local_header v (flag_word false (i_stream it) f) (compression_to (en_compression (i_entry it)))
    (zd_time (en_date (i_entry it))) (zd_date (en_date (i_entry it))) crc (head_csize it mod 0x100000000) (head_usize it mod 0x100000000)
    (len (i_name it)) (len (spec_extras lx)) ++ i_name it ++ spec_extras lx).
  { rewrite <- local_header_mod. unfold local_image, head_csize, head_usize, crc. reflexivity. }
  destruct (local_header_from v (flag_word false (i_stream it) f) (compression_to (en_compression (i_entry it)))
    (zd_time (en_date (i_entry it))) (zd_date (en_date (i_entry it))) crc (head_csize it mod 0x100000000) (head_usize it mod 0x100000000)
    (len (i_name it)) (len (spec_extras lx))) as (hb & Eh & Lh & Hh); try assumption.
  { now destruct (i_stream it), f. }
  { now destruct (en_compression (i_entry it)). }
  { apply N.mod_lt. discriminate. }
  { apply N.mod_lt. discriminate. }
  rewrite EI, Eh, <- !app_assoc in D.
  destruct (lfh_read_here cfg (s_data s) (s_pos s) hb (i_name it) (spec_extras lx) y D Lh) as (p' & R & RP);
    [now rewrite Hh|now rewrite Hh|].
  rewrite Hh in R, RP. unfold lfh_view in R, RP. cbn [l_compression l_uncompressed_size l_compressed_size l_flags] in R, RP.
  rewrite method_back in R, RP. cbn [rbind] in R, RP. rewrite PX in R, RP. cbn [rbind] in R, RP.
  rewrite gp_from_bits in R, RP. cbn [gp_data_descriptor gp_encrypted] in R, RP.
  assert (B0 : N.testbit (flag_word false (i_stream it) f) 0 = false) by (destruct (i_stream it), f; reflexivity).
  assert (B3 : N.testbit (flag_word false (i_stream it) f) 3 = i_stream it) by (destruct (i_stream it), f; reflexivity).
  assert (B11 : N.testbit (flag_word false (i_stream it) f) 11 = f) by (destruct (i_stream it), f; reflexivity).
  rewrite B0, B3 in R, RP.
  assert (NS' : i_stream it && compression_eqb (en_compression (i_entry it)) Stored = false).
  { destruct (i_stream it); [|reflexivity]. specialize (NS eq_refl). now destruct (en_compression (i_entry it)). }
  rewrite NS' in R, RP. set (z := lfh_entry _ _ _ _) in R, RP. specialize (RP eq_refl).
  assert (LI : len (local_image it v f lx) = 30 + len (i_name it) + len (spec_extras lx)).
  { rewrite EI, Eh, !len_app, len_to_le, Lh. change (N.of_nat 4) with 4. lia. }
  destruct (agrees_any (lfh_read cfg) s ltac:(auto with insens) N) as (q & Eq & _ & Nq).
  change (calm s) with (src (s_data s) (s_pos s)) in Eq. rewrite R in Eq. cbn [fst snd s_pos src] in Eq.
  assert (SH : shown it z /\ en_compression z = en_compression (i_entry it) /\ en_data_descriptor z = i_stream it /\
     (i_stream it = false -> en_compressed_size z = i_csize it)).
  { unfold shown. cbv zeta. unfold z. unfold lfh_entry. cbn [en_filename en_compression en_date en_data_descriptor en_crc32 en_uncompressed_size en_compressed_size
      l_flags l_mod_date l_mod_time l_crc gp_filename_unicode gp_data_descriptor l_uncompressed_size l_compressed_size]. rewrite PZ, B11, PN.
    assert (SZ : i_stream it = false -> fst (get_combined_sizes (head_usize it mod 4294967296) (head_csize it mod 4294967296) (get_zip64_extra_field (local_zip64 it))) = i_usize it /\
       snd (get_combined_sizes (head_usize it mod 4294967296) (head_csize it mod 4294967296) (get_zip64_extra_field (local_zip64 it))) = i_csize it).
    { intro S. unfold head_usize, head_csize, local_zip64. rewrite S. destruct (i_big it) eqn:BG.
      - split; reflexivity.
      - unfold i_big, is_over in BG. cbn [get_zip64_extra_field]. cbn. rewrite !N.mod_small by lia. auto. }
    assert (NM : reads_view f (view pr_path lx) (i_name it) (detect_filename (i_name it) f lx)).
    { apply (reads_as_view _ _ kind_path). apply detect_filename_spec. }
    assert (CM : reads_view f (view pr_comment lx) (i_comment it) (detect_comment (i_comment it) f lx)).
    { apply (reads_as_view _ _ kind_comment). apply detect_comment_spec. }
    ands; try reflexivity.
    - clear - NM. destruct NM; reflexivity.
    - now destruct (en_date (i_entry it)).
    - intro S. unfold crc. rewrite S. destruct (SZ S) as [S1 S2]. auto.
    - intro TC. apply (texts_back_view it a v f lx _ _ LO NM CM TC).
    - intro S. apply (SZ S). }
  destruct SH as (SH & E1 & E2 & E3).
  unfold stream_next. rewrite Eq. rewrite E1, E2.
  exists z. eexists. split; [|split; [|exact SH]].
  - destruct (i_stream it) eqn:S; [reflexivity|]. now rewrite E3.
  - split; [reflexivity|]. split; [|exact Nq]. cbn [s_pos]. rewrite RP, LI. lia.
Qed.

(** ** Entries lie one behind the other *)
Definition links (cd : codec) (x : bool * wop) (p : item * bytes) : Prop :=
  leaves cd (fst x) (snd x) (fst p) /\ item_fine (fst p) /\ exists c, entry_laid c (fst p) (snd p).

Lemma leaves_fine cd fn o it : leaves cd fn o it -> op_good o -> i_csize it < 0x10000000000000000 -> i_off it < 0x10000000000000000 -> item_fine it.
Proof.
  intros LV (G1 & G2) C O. unfold item_fine. destruct LV as [e data z off H|e z off|e body z off H|e body off];
  cbn [i_entry i_crc i_usize i_off] in *; unfold op_fine, op_entry, op_sized in *; (split; [exact G1|]);
  (split; [first [rewrite <- crc32_is_spec; apply crc32_bound|apply G1]|]); (split; [first [exact G2|apply G1]|]); auto.
Qed.

Lemma laid_chain cd l : enc_takes cd -> Forall op_good l -> Forall (fun o => dropped o = false) l ->
  forall w, w_offset w = len (w_bytes w) ->
  let '(xs, w') := run_ops cd l w in
  Forall (fun x => worked (snd x) = true) xs -> len (w_bytes w') < 0x10000000000000000 ->
  exists ps, w_bytes w' = w_bytes w ++ concat (map snd ps) /\ Forall2 (links cd) (succeeded (w_force_no w) xs) ps.
Proof.
  intros T GS. induction GS as [|o l G _ IH]; intros DR w OF; cbn [run_ops].
  { intros _ _. exists []. split; [now rewrite app_nil_r|constructor]. }
  inversion DR as [|? ? D1 D2]; subst. specialize (IH D2).
  pose proof (run_op_step cd o w T G OF) as S. pose proof (grows_run_op cd o w) as EV. pose proof (run_op_keeps cd o w) as K. cbv zeta in K.
  assert (SAME : writes_entry o = false -> w_bytes (snd (run_op cd o w)) = w_bytes w).
  { destruct o; try discriminate; try reflexivity. destruct closed; discriminate. }
  destruct (run_op cd o w) as [r w1]. cbn [snd] in EV, K, SAME. destruct K as (KF & _ & KZ).
  pose proof (evol_offset _ _ EV OF) as OF1.
  specialize (IH w1 OF1). pose proof (evol_run_ops cd l w1) as EV2. destruct (run_ops cd l w1) as [xs w2] eqn:RO. cbn [snd] in EV2.
  intros WK LB. inversion WK as [|? ? W1 W2]; subst. cbn [snd] in W1. destruct (IH W2 LB) as (ps & E & F).
  destruct EV2 as ((b & EB & _) & _). rewrite EB, len_app in LB. specialize (S ltac:(lia)).
  rewrite KF in F. destruct S as [C NW TM|c it img WE C B OFF LV EL FN I64 CNT].
  - exists ps. assert (W : writes_entry o = false) by (destruct (writes_entry o); [rewrite NW in W1 by easy; discriminate|reflexivity]).
    rewrite succeeded_cons, W. cbn [andb app]. rewrite <- (SAME W). auto.
  - exists ((it, img) :: ps). rewrite succeeded_cons, WE, W1. cbn [andb app map concat snd]. split.
    + rewrite E, B, <- app_assoc. reflexivity.
    + constructor; [|exact F]. split; [exact LV|]. split; [|now exists c].
      destruct EL as (a & v & f & lx & LO & IM & _). rewrite B, len_app, IM in LB. unfold item_image in LB. rewrite !len_app in LB.
      apply (leaves_fine _ _ _ _ LV G); [unfold i_csize; lia|cbn [fst]; rewrite OFF, OF; lia].
Qed.

(** ** The walk *)
Lemma window_all (d : bytes) p : len d < 0x10000000000000000 -> take u64_max (drop p d) = drop p d.
Proof. intro L. apply take_all. rewrite len_drop. change u64_max with 0xFFFFFFFFFFFFFFFF. lia. Qed.

(** what lies behind the header decodes as it should *)
Lemma data_reads cd x it rest : codec_ok cd -> leaves cd (fst x) (snd x) it -> streamable cd (snd x) ->
  (i_stream it = true -> en_compression (i_entry it) <> Stored) /\
  exists out, (forall data, holds cd (snd x) data -> out = data) /\
    let w := if i_stream it then i_data it ++ rest else i_data it in
    decoded cd (en_compression (i_entry it)) w = (out, true) /\
    entry_span cd (en_compression (i_entry it)) w = Some (len (i_data it)) /\
    (i_stream it = false -> holds cd (snd x) out -> crc32_spec out = i_crc it).
Proof.
  intros (_ & OK) LV ST. destruct x as [no64 o]. cbn [fst snd] in *.
  assert (GO : forall c out w k, c <> Stored -> dec cd c w = (out, Some k) -> decoded cd c w = (out, true) /\ entry_span cd c w = Some k).
  { intros c out w k NC E. unfold decoded, entry_span. destruct c; [easy|..]; now rewrite E. }
  destruct LV as [e data z off H|e z off|e body z off H|e body off]; cbn [i_stream i_data i_entry i_crc streamable] in *.
  - split; [discriminate|]. exists data. split; [intros data' HD; remember (OpWhole e data) as o; destruct HD; congruence|].
    destruct H as [content E|level content out st N1 N2 R]; [rewrite E; ands; reflexivity|].
    destruct (GO (en_compression e) content (out ++ enc_finish cd st) (len (out ++ enc_finish cd st)) N1) as [G1 G2].
    { rewrite <- (app_nil_r (out ++ enc_finish cd st)) at 1. eapply OK; eassumption. }
    ands; auto.
  - split; [discriminate|].
    assert (X : exists out, decoded cd (en_compression e) z = (out, true) /\ entry_span cd (en_compression e) z = Some (len z)).
    { destruct (en_compression e) eqn:EC; try (destruct ST as [ST|(out & ST)]; [discriminate|]; exists out; apply GO; [discriminate|exact ST]).
      now exists z. }
    destruct X as (out & X1 & X2). exists out. split; [|ands; auto].
    + intros data HD. remember (OpWholePre e z) as o. destruct HD as [| |e' z' data' [P1 P2]|]; try discriminate. injection Heqo as -> ->. congruence.
    + intros _ HD. remember (OpWholePre e z) as o. destruct HD as [| |e' z' data' [P1 P2]|]; try discriminate. injection Heqo as -> ->. exact P2.
  - split; [auto|]. exists (fed_bytes body). split; [intros data' HD; remember (OpStream false e body true) as o; destruct HD; try discriminate; congruence|].
    destruct H as [content E|level content out st N1 N2 R]; [contradiction|].
    destruct (GO (en_compression e) content ((out ++ enc_finish cd st) ++ rest) (len (out ++ enc_finish cd st)) N1) as [G1 G2]; [eapply OK; eassumption|].
    ands; auto; discriminate.
  - destruct ST as (N1 & out & ST). split; [auto|]. exists out. destruct (GO _ _ _ _ N1 (ST rest)) as [G1 G2]. split; [|ands; auto; discriminate].
    intros data HD. remember (OpStream true e body true) as o. destruct HD as [| | |e' z' data' [P1 P2]]; try discriminate. injection Heqo as -> ->.
    destruct (GO _ _ _ _ N1 (ST [])) as [G3 _]. rewrite app_nil_r in G3. congruence.
Qed.

Lemma descriptor_or_not it : descriptor_image it = if i_stream it then
    descriptor true false (i_crc it) (if i_no64 it then put_csize it else 0xFFFFFFFF) (if i_no64 it then put_usize it else 0xFFFFFFFF) else [].
Proof. reflexivity. Qed.

Lemma walk cd cfg d y : codec_ok cd -> len d < 0x10000000000000000 -> forall l ps, Forall2 (links cd) l ps -> Forall (fun x => streamable cd (snd x)) l ->
  forall s p, stands s d p -> drop p d = concat (map snd ps) ++ to_le 4 CDH_SIGNATURE ++ y -> walks cd cfg l s.
Proof.
  intros OK LD l ps F. induction F as [|x [it img] l ps (LV & IF & c & EL) F IH]; intros ST s p SD D.
  - cbn [map concat app] in D. cbn [walks]. destruct SD as (<- & <- & N). unfold stream_next.
    destruct (agrees_any (lfh_read cfg) s ltac:(auto with insens) N) as (q & Eq & _). 
    change (calm s) with (src (s_data s) (s_pos s)) in Eq. rewrite (lfh_read_end _ _ _ _ D) in Eq. now rewrite Eq.
  - inversion ST as [|? ? ST1 ST2]; subst. specialize (IH ST2). cbn [fst snd] in *.
    destruct EL as (a & v & f & lx & LO & -> & _). cbn [map concat snd] in D. unfold item_image in D. rewrite <- !app_assoc in D.
    set (more := descriptor_image it ++ concat (map snd ps) ++ to_le 4 CDH_SIGNATURE ++ y) in D.
    destruct (data_reads cd x it more OK LV ST1) as (NS & out & HO & DE & SP & CR).
    destruct (local_next cfg s d p it a v f lx _ LO IF NS SD D) as (z & s1 & NX & S1 & SH).
    set (p1 := p + len (local_image it v f lx)) in *.
    apply (drop_step (len (local_image it v f lx))) in D; [|reflexivity]. fold p1 in D.
    set (lim := if i_stream it then u64_max else i_csize it) in *.
    assert (W : take lim (drop (s_pos s1) (s_data s1)) = if i_stream it then i_data it ++ more else i_data it).
    { destruct S1 as (-> & -> & _). unfold lim. destruct (i_stream it); [now rewrite window_all, D|]. rewrite D. now apply take_app_exact. }
    assert (D2 : drop (p1 + len (i_data it)) d = more) by (apply (drop_step (len (i_data it))) in D; [exact D|reflexivity]).
    assert (AE : forall s', stands s' d (p1 + len (i_data it)) -> exists s2, after_entry (i_stream it) s' = Ok s2 /\ walks cd cfg l s2).
    { intros s' S'. assert (X : exists s2, after_entry (i_stream it) s' = Ok s2 /\ stands s2 d (p1 + len (i_data it) + len (descriptor_image it))).
      { unfold more in D2. rewrite descriptor_or_not in D2 |- *. destruct (i_stream it).
        - rewrite len_descriptor. destruct IF as (_ & HC & _). 
          refine (descriptor_consumed s' d _ true false (i_crc it) _ _ _ S' D2 HC _). discriminate.
        - exists s'. split; [reflexivity|]. change (len (@nil byte)) with 0. now rewrite N.add_0_r. }
      destruct X as (s2 & -> & S2). exists s2. split; [reflexivity|]. apply (IH s2 _ S2). unfold more in D2.
      apply (drop_step (len (descriptor_image it))) in D2; [exact D2|reflexivity]. }
    cbn [walks]. eexists _, s1. split; [exact NX|]. cbn [rd_entry rd_reader rd_descriptor]. split; [now exists it|].
    exists out. split; [exact HO|]. intro reads. destruct S1 as (SD1 & SP1 & N1).
    pose proof (done_spec cd s1 (en_compression (i_entry it)) lim reads z (i_stream it) N1) as H1.
    pose proof (skip_spec cd s1 (en_compression (i_entry it)) lim reads z (i_stream it) N1) as H2.
    pose proof (checked_iff cd s1 (en_compression (i_entry it)) lim reads z) as H3.
    pose proof (er_reads_steps cd reads (er_new s1 (en_compression (i_entry it)) lim)) as H4.
    destruct (er_reads cd reads (er_new s1 (en_compression (i_entry it)) lim)) as [xs r]. cbv zeta in *.
    rewrite W in *. rewrite DE in *. cbn [fst snd] in *.
    assert (RE : exists rest, out = delivered xs ++ rest /\ fst (er_read_to_end cd r) = Ok rest).
    { pose proof (steps_content _ _ _ _ H4) as SC. rewrite content_new, W, DE in SC. injection SC as SC1 SC2.
      exists (fst (EntryReaderFacts.content cd r)). split; [exact SC1|]. rewrite er_read_to_end_nofail; [now rewrite <- SC2|].
      eapply nofail_suffix; [exact N1|]. exact (st_sched _ _ _ _ H4). }
    destruct RE as (rest & R1 & R2). split; [|split; [|split]].
    + exists rest. split; [exact R1|]. split; [exact R2|]. intros DD HD. apply (proj1 H3). split; [exact R2|]. rewrite <- R1.
      destruct SH as (_ & _ & _ & SH3 & SH4 & _). rewrite SH3 in DD. destruct (SH4 DD) as (-> & _). now apply CR.
    + destruct H2 as (_ & H2). destruct (H2 _ SP) as (s' & S' & E'). rewrite SD1, SP1 in S'. destruct (AE s' S') as (s2 & A1 & A2). exists s2. now rewrite E'.
    + intro DL. destruct H1 as (_ & _ & H1). destruct (H1 DL _ SP) as (s' & S' & E'). rewrite SD1, SP1 in S'. destruct (AE s' S') as (s2 & A1 & A2). exists s2. now rewrite E'.
    + intro DL. now apply H1.
Qed.

Lemma worked_not_many (xs : list (wop * res unit)) : Forall (fun x => worked (snd x) = true) xs -> Forall (fun x => too_many (snd x) = false) xs.
Proof. intro F. eapply Forall_impl; [|exact F]. intros [o [u|e|p]]; cbn; easy. Qed.
Lemma record_starts a : exists y, member_record a = to_le 4 CDH_SIGNATURE ++ y.
Proof. eexists. unfold member_record, central_header, record. cbn [map concat fst snd]. rewrite (le_to_le 4 0x02014b50), <- !app_assoc. reflexivity. Qed.

Lemma archive_walk cd cfg sched s l : codec_ok cd -> Forall op_good l -> Forall (fun o => dropped o = false) l ->
  let '(xs, r, w) := run_archive cd sched l in
  r = Ok tt -> Forall (fun x => worked (snd x) = true) xs -> len (w_bytes w) < 0x10000000000000000 ->
  Forall (fun x => streamable cd (snd x)) (succeeded false xs) -> succeeded false xs <> [] ->
  stands s (w_bytes w) 0 -> walks cd cfg (succeeded false xs) s.
Proof.
  intros OK G DR. pose proof (layout cd sched l (proj1 OK) G) as H. pose proof (laid_chain cd l (proj1 OK) G DR (zw_new sched) eq_refl) as C.
  unfold run_archive in *. destruct (run_ops cd l (zw_new sched)) as [xs w0]. destruct (zw_close w0) as [r w]. cbn [snd] in *.
  intros R WK L ST NE SD. destruct (H R L) as (body & its & ms & EB & E & F1 & F2).
  assert (LB : len body < 0x10000000000000000) by (rewrite E, len_app in L; lia). rewrite EB in LB.
  destruct (C WK LB) as (ps & EP & F3). cbn [zw_new w_force_no] in F3. change (w_bytes (zw_new sched)) with (@nil byte) in EP. rewrite app_nil_l in EP.
  rewrite (recorded_succeeded xs (worked_not_many xs WK)) in F1.
  destruct ms as [|a ms].
  { exfalso. inversion F2; subst. inversion F1 as [Q|]. now elim NE. }
  destruct (record_starts a) as (y & EY).
  eapply (walk cd cfg (w_bytes w) _ OK L _ ps F3 ST s 0 SD).
  rewrite drop_0, E, EB, EP. unfold members. cbn [map concat]. rewrite EY, <- !app_assoc. reflexivity.
Qed.

Lemma empty_archive_stream : let '(xs, r, w) := run_archive Samples.toy [] [] in
  r = Ok tt /\ succeeded false xs = [] /\
  forall cfg s, stands s (w_bytes w) 0 -> fst (stream_next cfg s) = Err (UnexpectedHeaderError 0x06054b50 0x04034b50).
Proof.
  assert (H : let '(xs, r, w) := run_archive Samples.toy [] [] in r = Ok tt /\ xs = [] /\ w_bytes w = le 4 0x06054b50 ++ repeat x00 18) by (vm_compute; auto).
  destruct (run_archive Samples.toy [] []) as [[xs r] w]. destruct H as (-> & -> & ->). split; [reflexivity|]. split; [reflexivity|].
  intros cfg s (D & P & N). eapply wrong_stream; [exact N| |reflexivity|discriminate|discriminate]. rewrite D, P, drop_0. reflexivity.
Qed.
