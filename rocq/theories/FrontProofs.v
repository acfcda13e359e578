(** Archives of any origin read front to back. *)
From Verif Require Import Base BaseFacts SpecFormat SpecCrc SpecArchive SpecRead Crc32 CrcFacts ZString ZDate Headers HeadersFacts
  ExtraField ExtraFieldFacts Entry IO IOFacts Reader ReaderFacts EntryReader OpenFacts LfhFacts EntryReaderFacts EntryProofs ReadProofs
  StreamReader Writer SpecUtf8 SpecWrite SpecStream StreamProofs StreamWalk RoundTrip TextFacts ArchiveProofs Zip64Proofs SpecFront.
Arguments N.add : simpl never.
Arguments N.sub : simpl never.
Arguments N.min : simpl never.
Arguments N.mul : simpl never.

(** ** The local header *)
Lemma head_next cfg s d p a y : member_ok a -> N.testbit (a_flags a) 0 = false ->
  (N.testbit (a_flags a) 3 = true -> a_method a <> Stored) ->
  stands s d p -> drop p d = head_record a ++ y ->
  exists z s', stream_next cfg s = (Ok (Some {| rd_reader := er_new s' (a_method a) (if N.testbit (a_flags a) 3 then u64_max else a_csize a);
      rd_entry := z; rd_descriptor := N.testbit (a_flags a) 3 |}), s') /\
    stands s' d (p + len (head_record a)) /\ head_shown a z.
Proof.
  intros OK B0 NS (<- & <- & N) D. pose proof (member_parse cfg a OK) as PX. pose proof (heard_zip64 a OK) as PZ.
  pose proof (heard_filename a (a_name a) (N.testbit (a_flags a) 11) OK) as PN.
  pose proof OK as (H1&H2&H3&H4&H5&H6&H7&H8&Hu&Hc&Ho&Hd&_&_&Hn&Hk&Hx&Fb&Fa).
  assert (Bc : kept (a_c64 a) 0xFFFFFFFF (a_csize a) < 4294967296).
  { apply kept_bound; [easy|]. unfold fits in Hc. now destruct (a_c64 a). }
  assert (Bu : kept (a_u64 a) 0xFFFFFFFF (a_usize a) < 4294967296).
  { apply kept_bound; [easy|]. unfold fits in Hu. now destruct (a_u64 a). }
  unfold head_record in *.
  destruct (local_header_from (a_needed a) (a_flags a) (compression_to (a_method a)) (a_time a) (a_date a) (a_crc a)
    (kept (a_c64 a) 0xFFFFFFFF (a_csize a)) (kept (a_u64 a) 0xFFFFFFFF (a_usize a)) (len (a_name a)) (len (spec_extras (a_extras a))))
    as (hb & Eh & Lh & Hh); try assumption; [apply method_bound|].
  rewrite Eh in *. rewrite <- !app_assoc in D.
  destruct (lfh_read_here cfg (s_data s) (s_pos s) hb (a_name a) (spec_extras (a_extras a)) y D Lh) as (p' & R & RP);
    [now rewrite Hh|now rewrite Hh|].
  rewrite Hh in R, RP. unfold lfh_view in R, RP. cbn [l_compression l_uncompressed_size l_compressed_size l_flags] in R, RP.
  rewrite method_back in R, RP. cbn [rbind] in R, RP. rewrite PX in R, RP. cbn [rbind] in R, RP.
  rewrite gp_from_bits in R, RP. cbn [gp_data_descriptor gp_encrypted] in R, RP. rewrite B0 in R, RP.
  assert (NS' : N.testbit (a_flags a) 3 && compression_eqb (a_method a) Stored = false).
  { destruct (N.testbit (a_flags a) 3); [|reflexivity]. specialize (NS eq_refl). now destruct (a_method a). }
  rewrite NS' in R, RP. set (z := lfh_entry _ _ _ _) in R, RP. specialize (RP eq_refl).
  destruct (agrees_any (lfh_read cfg) s ltac:(auto with insens) N) as (q & Eq & _ & Nq).
  change (calm s) with (src (s_data s) (s_pos s)) in Eq. rewrite R in Eq. cbn [fst snd s_pos src] in Eq.
  assert (Z : get_zip64_extra_field (a_extras a) =
     if a_u64 a || a_c64 a || a_o64 a || a_d64 a then
       Some {| zf_uncompressed := when (a_u64 a) (a_usize a); zf_compressed := when (a_c64 a) (a_csize a);
               zf_offset := when (a_o64 a) (a_offset a); zf_disk := when (a_d64 a) (a_disk a) |} else None).
  { unfold a_extras. rewrite zip64_of_plain by easy. unfold a_zip64. destruct (_ || _); [reflexivity|].
    rewrite <- (app_nil_r (a_after a)). cbn [app]. now rewrite zip64_of_plain. }
  assert (SH : head_shown a z).
  { unfold head_shown, z, lfh_entry. cbn [en_filename en_compression en_date en_data_descriptor en_crc32 en_uncompressed_size en_compressed_size
      en_iattr en_eattr en_attr_compat en_comment en_extra l_flags l_mod_date l_mod_time l_crc gp_filename_unicode gp_data_descriptor l_uncompressed_size l_compressed_size].
    rewrite PN, PZ, Z. split; [apply detect_filename_spec|].
    repeat split; destruct (a_u64 a), (a_c64 a), (a_o64 a), (a_d64 a); reflexivity. }
  assert (E : en_compression z = a_method a /\ en_compressed_size z = a_csize a /\ en_data_descriptor z = N.testbit (a_flags a) 3) by (unfold head_shown in SH; intuition).
  destruct E as (E1 & E2 & E3).
  unfold stream_next. rewrite Eq, E1, E2, E3. exists z. eexists. split; [reflexivity|]. split; [|exact SH].
  split; [reflexivity|]. split; [|exact Nq]. cbn [s_pos]. rewrite RP, !len_app, len_to_le, Lh. change (N.of_nat 4) with 4. lia.
Qed.

(** ** Behind the last entry *)
Lemma said_next cfg s d p y fin : stands s d p -> drop p d = y -> said_at y fin -> fst (stream_next cfg s) = fin.
Proof.
  intros (<- & <- & N) D S. unfold stream_next.
  destruct (agrees_any (lfh_read cfg) s ltac:(auto with insens) N) as (q & Eq & _).
  change (calm s) with (src (s_data s) (s_pos s)) in Eq.
  destruct S as [rest E|sig rest B N1 N2 E|L].
  - rewrite E, le_to_le in D. rewrite (lfh_read_end _ _ _ _ D) in Eq. now rewrite Eq.
  - rewrite E, le_to_le in D. rewrite (lfh_read_wrong _ _ _ sig rest B N1 N2 D) in Eq. now rewrite Eq.
  - assert (E : lfh_read cfg (src (s_data s) (s_pos s)) = (Err (UpstreamReadError UnexpectedEof), src (s_data s) (s_pos s + N.min 4 (len (drop (s_pos s) (s_data s)))))).
    { unfold lfh_read. apply bind_err. rewrite read_exact_calm. unfold exact_result, avail. cbn [s_data s_pos src]. rewrite D.
      destruct (4 <=? len y) eqn:E; [lia|reflexivity]. }
    rewrite E in Eq. now rewrite Eq.
Qed.

(** ** The data *)
Lemma piece_reads cd p out more : piece_holds cd p out ->
  let w := if p_streamed p then p_data p ++ more else p_data p in
  decoded cd (a_method (p_head p)) w = (out, true) /\ entry_span cd (a_method (p_head p)) w = Some (len (p_data p)).
Proof.
  intros (_ & _ & H). destruct (p_streamed p).
  - destruct H as (NS & H & _). unfold decoded, entry_span. destruct (a_method (p_head p)); [easy|..]; now rewrite H.
  - destruct H as (_ & H). unfold decoded, entry_span. destruct (a_method (p_head p)); [now subst|..]; now rewrite H.
Qed.

Lemma front cd cfg d fin y : len d < 0x10000000000000000 -> said_at y fin -> forall l, Forall (fun x => piece_holds cd (fst x) (snd x)) l ->
  forall s p, stands s d p -> drop p d = pieces (map fst l) ++ y -> passes cd cfg fin l s.
Proof.
  intros LD FI l F. induction F as [|[q out] l PH F IH]; intros s p SD D.
  - cbn [passes]. now apply (said_next cfg s d p y fin).
  - cbn [fst snd] in PH. pose proof PH as (OK & B0 & HP). cbn [map fst] in D.
    change (pieces (q :: map fst l)) with (piece_image q ++ pieces (map fst l)) in D. unfold piece_image in D. rewrite <- !app_assoc in D.
    set (a := p_head q) in *. set (more := p_tail q ++ pieces (map fst l) ++ y) in D.
    destruct (piece_reads cd q out more PH) as (DE & SP). cbv zeta in DE, SP. fold a in DE, SP.
    assert (NS : N.testbit (a_flags a) 3 = true -> a_method a <> Stored).
    { intro B. unfold p_streamed in HP. fold a in HP. rewrite B in HP. now destruct HP. }
    destruct (head_next cfg s d p a _ OK B0 NS SD D) as (z & s1 & NX & S1 & SH).
    set (p1 := p + len (head_record a)) in *.
    apply (drop_step (len (head_record a))) in D; [|reflexivity]. fold p1 in D.
    change (N.testbit (a_flags a) 3) with (p_streamed q) in NX.
    set (lim := if p_streamed q then u64_max else a_csize a) in *.
    assert (W : take lim (drop (s_pos s1) (s_data s1)) = if p_streamed q then p_data q ++ more else p_data q).
    { destruct S1 as (-> & -> & _). unfold lim. destruct (p_streamed q); [now rewrite window_all, D|]. rewrite D. destruct HP as (-> & _). now apply take_app_exact. }
    assert (D2 : drop (p1 + len (p_data q)) d = more) by (apply (drop_step (len (p_data q))) in D; [exact D|reflexivity]).
    assert (AE : forall s', stands s' d (p1 + len (p_data q)) -> exists s2, after_entry (p_streamed q) s' = Ok s2 /\ passes cd cfg fin l s2).
    { intros s' S'. assert (X : exists s2, after_entry (p_streamed q) s' = Ok s2 /\ stands s2 d (p1 + len (p_data q) + len (p_tail q))).
      { unfold more, p_tail in *. destruct (p_streamed q).
        - destruct HP as (_ & _ & HC & HU). destruct (descriptor_consumed s' d _ (p_signed q) false (p_dcrc q) _ _ _ S' D2 HC) as (s2 & A & B).
          { intros A _ B. now destruct (HU A). }
          exists s2. split; [exact A|]. revert B. unfold descriptor_taken. rewrite len_descriptor.
          destruct (p_signed q); cbn [orb andb negb]; [exact id|].
          assert (E : p_dcrc q =? 0x08074b50 = false) by (apply N.eqb_neq; now apply HU). rewrite E. exact id.
        - exists s'. split; [reflexivity|]. change (len (@nil byte)) with 0. now rewrite N.add_0_r. }
      destruct X as (s2 & -> & S2). exists s2. split; [reflexivity|]. apply (IH s2 _ S2). unfold more in D2.
      apply (drop_step (len (p_tail q))) in D2; [exact D2|reflexivity]. }
    cbn [passes]. eexists _, s1. split; [exact NX|]. cbn [rd_entry rd_reader rd_descriptor]. split; [exact SH|].
    intro reads. destruct S1 as (SD1 & SP1 & N1).
    pose proof (done_spec cd s1 (a_method a) lim reads z (p_streamed q) N1) as H1.
    pose proof (skip_spec cd s1 (a_method a) lim reads z (p_streamed q) N1) as H2.
    pose proof (checked_iff cd s1 (a_method a) lim reads z) as H3.
    pose proof (er_reads_steps cd reads (er_new s1 (a_method a) lim)) as H4.
    destruct (er_reads cd reads (er_new s1 (a_method a) lim)) as [xs r]. cbv zeta in *.
    rewrite W in *. rewrite DE in *. cbn [fst snd] in *.
    assert (RE : exists rest, out = delivered xs ++ rest /\ fst (er_read_to_end cd r) = Ok rest).
    { pose proof (steps_content _ _ _ _ H4) as SC. rewrite content_new, W, DE in SC. injection SC as SC1 SC2.
      exists (fst (EntryReaderFacts.content cd r)). split; [exact SC1|]. rewrite er_read_to_end_nofail; [now rewrite <- SC2|].
      eapply nofail_suffix; [exact N1|]. exact (st_sched _ _ _ _ H4). }
    destruct RE as (rest & R1 & R2). split; [|split; [|split]].
    + exists rest. split; [exact R1|]. split; [exact R2|].
      assert (EC : en_crc32 z = a_crc a) by (destruct SH as (_ & _ & SH & _); exact SH).
      fold a. destruct (N.eqb_spec (crc32_spec out) (a_crc a)) as [C|C].
      * apply (proj1 H3). split; [exact R2|]. rewrite <- R1. now rewrite EC.
      * apply (proj1 (proj2 H3)). exists rest. split; [exact R2|]. rewrite <- R1. now rewrite EC.
    + destruct H2 as (_ & H2). destruct (H2 _ SP) as (s' & S' & E'). rewrite SD1, SP1 in S'. destruct (AE s' S') as (s2 & A1 & A2). exists s2. now rewrite E'.
    + intro DL. destruct H1 as (_ & _ & H1). destruct (H1 DL _ SP) as (s' & S' & E'). rewrite SD1, SP1 in S'. destruct (AE s' S') as (s2 & A1 & A2). exists s2. now rewrite E'.
    + intro DL. now apply H1.
Qed.

(** ** Reading everything *)
Lemma to_end_as_reads cd : forall f r b r', er_read_to_end_loop cd f r = (Ok b, r') ->
  exists l, let '(xs, r2) := er_reads cd l r in r2 = r' /\ delivered xs = b.
Proof.
  induction f as [|f IH]; intros r b r' H; [discriminate H|]. cbn [er_read_to_end_loop] in H. unfold bind in H.
  destruct (er_read cd u64_max r) as [[b1|e|e] r1] eqn:E; [|discriminate H|discriminate H].
  destruct (len b1 =? 0) eqn:L.
  - cbn in H. injection H as <- <-. exists [u64_max]. cbn [er_reads]. rewrite E. split; [reflexivity|].
    apply N.eqb_eq, len_nil0 in L. subst b1. reflexivity.
  - destruct (er_read_to_end_loop cd f r1) as [[b2|e|e] r2] eqn:E2; [|discriminate H|discriminate H]. cbn in H. injection H as <- <-.
    destruct (IH _ _ _ E2) as (l & HL). exists (u64_max :: l). cbn [er_reads]. rewrite E. destruct (er_reads cd l r1) as [xs r3].
    destruct HL as (-> & <-). split; reflexivity.
Qed.

Lemma front_all cd cfg : forall l s, passes cd cfg (Ok None) l s ->
  forall f, (length l < f)%nat -> exists zs, front_to_back cd cfg f s = Ok zs /\
    Forall2 (fun x y => head_shown (p_head (fst x)) (fst y) /\ snd y = snd x) l zs.
Proof.
  induction l as [|[q out] l IH]; intros s P f Hf; (destruct f as [|f]; [cbn in Hf; lia|]); cbn [passes] in P; cbn [front_to_back].
  - rewrite P. exists []. split; [reflexivity|constructor].
  - destruct P as (rd & s1 & -> & SH & P). cbn [fst]. pose proof (P []) as P0. cbn [er_reads] in P0. destruct P0 as ((rest & R1 & R2 & _) & _).
    change (delivered []) with (@nil byte) in R1. cbn [app] in R1. subst rest.
    destruct (er_read_to_end cd (rd_reader rd)) as [x r] eqn:E. cbn [fst] in R2. subst x. cbn [rbind].
    destruct (to_end_as_reads _ _ _ _ _ E) as (reads & HR). specialize (P reads). destruct (er_reads cd reads (rd_reader rd)) as [xs r2].
    destruct HR as (-> & HD). destruct P as (_ & _ & P & _). destruct (P HD) as (s2 & -> & P2). cbn [rbind].
    cbn [length] in Hf. destruct (IH s2 P2 f ltac:(lia)) as (zs & -> & F). cbn [rbind]. eexists. split; [reflexivity|]. constructor; [|exact F].
    split; [exact SH|reflexivity].
Qed.

(** ** The same through the directory *)
Lemma first_says basic : forall a t b a' t' b', a ++ UV1 (crc32_spec basic) t :: b = a' ++ UV1 (crc32_spec basic) t' :: b' ->
  Forall (fun u => ~ says basic u) a -> Forall (fun u => ~ says basic u) a' -> t = t'.
Proof.
  induction a as [|u a IH]; intros t b [|u' a'] t' b' E F F'.
  - cbn in E. now injection E as -> _.
  - cbn in E. injection E as <- _. inversion F' as [|? ? F1 _]. exfalso. apply F1. now exists t.
  - cbn in E. injection E as -> _. inversion F as [|? ? F1 _]. exfalso. apply F1. now exists t'.
  - cbn in E. injection E as -> E. inversion F; inversion F'; subst. eapply IH; eauto.
Qed.
Lemma mute_not basic v a t b : mute basic v -> v = a ++ UV1 (crc32_spec basic) t :: b -> Forall (fun u => ~ says basic u) a -> ~ SpecUtf8.is_utf8 t.
Proof.
  intros M -> F. destruct M as [M|(a' & t' & b' & E & F' & N)].
  - apply Forall_app in M as [_ M]. inversion M as [|? ? M1 _]. exfalso. apply M1. now exists t.
  - now rewrite (first_says _ _ _ _ _ _ _ E F F').
Qed.
Lemma view_det flag v basic z1 z2 : reads_view flag v basic z1 -> reads_view flag v basic z2 -> z1 = z2.
Proof.
  intros [F U|F U|a t b F E S U|F M A|F M A] [F' U'|F' U'|a' t' b' F' E' S' U'|F' M' A'|F' M' A']; try congruence; try (exfalso; congruence); try easy.
  - rewrite E in E'. now rewrite (first_says _ _ _ _ _ _ _ E' S S').
  - now elim (mute_not _ _ _ _ _ M' E S).
  - now elim (mute_not _ _ _ _ _ M' E S).
  - now elim (mute_not _ _ _ _ _ M E' S').
  - now elim (mute_not _ _ _ _ _ M E' S').
Qed.
Lemma same_name f xs ys b z1 z2 : path_fields xs = path_fields ys -> reads_as XPath f xs b z1 -> reads_as XPath f ys b z2 -> z1 = z2.
Proof.
  intros E R1 R2. apply (reads_as_view XPath pr_path kind_path) in R1, R2.
  change (view pr_path xs) with (path_fields xs) in R1. change (view pr_path ys) with (path_fields ys) in R2. rewrite E in R1. now apply (view_det f (path_fields ys) b).
Qed.

Lemma piece_start d pre a y : member_ok a -> d = pre ++ head_record a ++ y -> data_start d (len pre) = len pre + len (head_record a).
Proof.
  intros (_&_&_&_&_&_&_&_&_&_&_&_&_&_&Hn&_&Hx&_) ->. unfold head_record. rewrite <- !app_assoc. rewrite data_start_at by easy.
  rewrite !len_app. change (len (local_header _ _ _ _ _ _ _ _ _ _)) with 30. lia.
Qed.

Lemma described_reads cd d y : len d < 0x10000000000000000 -> forall l ms, Forall (fun x => piece_holds cd (fst x) (snd x)) l ->
  forall pre, d = pre ++ pieces (map fst l) ++ y -> described (len pre) l ms ->
  forall es, Forall2 reported ms es ->
  Forall2 (fun x e => has_local_header d e /\ checked_content cd d e = Ok (snd x) /\
    forall z, head_shown (p_head (fst x)) z -> same_view z e) l es.
Proof.
  intros LD l ms F. revert ms. induction F as [|[q out] l PH F IH]; intros ms pre E DS es R.
  - destruct ms; [|easy]. inversion R; subst. constructor.
  - destruct ms as [|m ms]; [easy|]. cbn [described] in DS. cbv zeta in DS.
    destruct DS as (MO & D1 & D2 & D3 & D4 & D5 & D6 & D7 & D8 & D9 & DS). inversion R as [|? e ? es' RE R']; subst. cbn [fst snd] in *.
    change (pieces (map fst ((q, out) :: l))) with (piece_image q ++ pieces (map fst l)) in *.
    set (d := pre ++ (piece_image q ++ pieces (map fst l)) ++ y) in *.
    assert (E1 : d = (pre ++ piece_image q) ++ pieces (map fst l) ++ y) by (unfold d; now rewrite <- !app_assoc).
    constructor; [|apply (IH ms (pre ++ piece_image q) E1); [now rewrite len_app|exact R']].
    pose proof PH as (OK & B0 & HP). set (more := p_tail q ++ pieces (map fst l) ++ y).
    assert (E2 : d = pre ++ head_record (p_head q) ++ p_data q ++ more) by (unfold d, more, piece_image; now rewrite <- !app_assoc).
    pose proof (piece_start d pre (p_head q) _ OK E2) as DS'.
    destruct RE as (R1 & _ & R2 & R3 & _ & R4 & R5 & _ & _ & _ & _ & _ & R6 & _). rewrite D9 in R6.
    assert (LH : len (head_record (p_head q)) >= 30).
    { unfold head_record. rewrite len_app. change (len (local_header _ _ _ _ _ _ _ _ _ _)) with 30. lia. }
    assert (LL : len d = len pre + len (head_record (p_head q)) + len (p_data q) + len more) by (rewrite E2, !len_app; lia).
    split; [|split].
    + split; [|split].
      * rewrite R6. exists pre. eexists. split; [|reflexivity]. rewrite E2 at 1. unfold head_record, local_header, record.
        cbn [map concat fst snd]. rewrite <- !app_assoc. reflexivity.
      * rewrite R6. lia.
      * rewrite R6, DS'. unfold u64_max. lia.
    + unfold checked_content. 
      assert (RG : region d e = p_data q).
      { unfold region. rewrite R4, R6, D7, DS', E2. rewrite app_assoc. rewrite skipn_app, firstn_app.
        replace (length (pre ++ head_record (p_head q))) with (N.to_nat (len pre + len (head_record (p_head q)))) by (rewrite <- len_app; unfold len; lia).
        rewrite skipn_all2 by (rewrite <- len_app; unfold len; lia). rewrite Nat.sub_diag. cbn [skipn app].
        replace (N.to_nat (len (p_data q))) with (length (p_data q)) by (unfold len; lia).
        cbn [length]. rewrite firstn_nil, Nat.sub_0_r. cbn [app]. rewrite firstn_app, Nat.sub_diag, firstn_all. cbn [firstn]. now rewrite app_nil_r. }
      rewrite RG, R2, D4, R3, D8.
      assert (X : decoded cd (a_method (p_head q)) (p_data q) = (out, true)).
      { destruct (piece_reads cd q out [] PH) as (X & _). cbv zeta in X. rewrite app_nil_r in X. now destruct (p_streamed q). }
      rewrite X, N.eqb_refl. reflexivity.
    + intros z (S1 & S2 & _ & _ & _ & S3 & _). unfold same_view. rewrite S2, R2, D4, S3, R5, D5, D6. split; [|now split].
      rewrite D1, D2 in R1. refine (same_name _ _ _ _ _ _ _ S1 R1). now rewrite D3.
Qed.

Lemma agree_from cd cfg s s0 l ms y f : l <> [] -> Forall (fun x => piece_holds cd (fst x) (snd x)) l -> described 0 l ms ->
  s_data s = pieces (map fst l) ++ members ms ++ y -> len (s_data s) < 0x10000000000000000 -> nofail (s_sched s) -> stands s0 (s_data s) 0 ->
  Forall2 reported ms (f_entries f) -> forall n, (length l < n)%nat ->
  exists zs, front_to_back cd cfg n s0 = Ok zs /\ map snd zs = map snd l /\
    Forall2 (fun x e => same_view (fst x) e) zs (f_entries f) /\
    forall i x, nth_error zs (N.to_nat i) = Some x -> read_entry cd f i s = Ok (snd x).
Proof.
  intros NE F DS E L N SD R n HN. destruct ms as [|m ms]; [destruct l as [|[p o] l]; [easy|now elim DS]|].
  destruct (record_starts m) as (t & ET).
  assert (FI : said_at (members (m :: ms) ++ y) (Ok None)).
  { apply (said_end _ (t ++ members ms ++ y)). unfold members. cbn [map concat]. rewrite ET, le_to_le. now rewrite <- !app_assoc. }
  assert (P : passes cd cfg (Ok None) l s0).
  { apply (front cd cfg (s_data s) (Ok None) _ L FI l F s0 0 SD). rewrite drop_0. exact E. }
  destruct (front_all cd cfg l s0 P n HN) as (zs & EZ & FZ). exists zs. split; [exact EZ|].
  pose proof (described_reads cd (s_data s) (members (m :: ms) ++ y) L l (m :: ms) F [] E DS (f_entries f) R) as H. clear - FZ H N.
  assert (G : map snd zs = map snd l /\ Forall2 (fun x e => same_view (fst x) e) zs (f_entries f) /\
     Forall2 (fun x e => has_local_header (s_data s) e /\ checked_content cd (s_data s) e = Ok (snd x)) zs (f_entries f)).
  { revert H. generalize (f_entries f). induction FZ as [|[q o] [z b] l zs (S1 & S2) FZ IH]; intros es H; inversion H as [|? e ? es' H1 H2]; subst.
    - repeat split; constructor.
    - cbn [fst snd] in *. subst b. destruct H1 as (A & B & C). destruct (IH _ H2) as (I1 & I2 & I3). cbn [map snd]. rewrite I1. split; [reflexivity|].
      split; constructor; auto. }
  destruct G as (G1 & G2 & G3). split; [exact G1|]. split; [exact G2|]. intros i x Hx.
  assert (X : exists e, nth_error (f_entries f) (N.to_nat i) = Some e /\ has_local_header (s_data s) e /\ checked_content cd (s_data s) e = Ok (snd x)).
  { clear - G3 Hx. revert Hx. generalize (N.to_nat i). induction G3 as [|a e zs es H G3 IH]; intros [|k] Hx; try discriminate Hx.
    - injection Hx as ->. exists e. now split.
    - now apply IH. }
  destruct X as (e & X1 & X2 & X3). rewrite (read_entry_content cd f i s e N X1 X2). exact X3.
Qed.

(** ** Archives this crate wrote *)
Lemma walk_all cd cfg : forall l s, walks cd cfg l s -> forall n, (length l < n)%nat -> exists zs, front_to_back cd cfg n s = Ok zs /\
  Forall2 (fun x y => (exists it, leaves cd (fst x) (snd x) it /\ shown it (fst y)) /\ forall data, holds cd (snd x) data -> snd y = data) l zs.
Proof.
  induction l as [|x l IH]; intros s P n Hn; (destruct n as [|n]; [cbn in Hn; lia|]); cbn [walks] in P; cbn [front_to_back].
  - rewrite P. exists []. split; [reflexivity|constructor].
  - destruct P as (rd & s1 & -> & SH & out & HO & P). cbn [fst]. pose proof (P []) as P0. cbn [er_reads] in P0. destruct P0 as ((rest & R1 & R2 & _) & _).
    change (delivered []) with (@nil byte) in R1. cbn [app] in R1. subst rest.
    destruct (er_read_to_end cd (rd_reader rd)) as [b r] eqn:E. cbn [fst] in R2. subst b. cbn [rbind].
    destruct (to_end_as_reads _ _ _ _ _ E) as (reads & HR). specialize (P reads). destruct (er_reads cd reads (rd_reader rd)) as [xs r2].
    destruct HR as (-> & HD). destruct P as (_ & _ & P & _). destruct (P HD) as (s2 & -> & P2). cbn [rbind].
    cbn [length] in Hn. destruct (IH s2 P2 n ltac:(lia)) as (zs & -> & F). cbn [rbind]. eexists. split; [reflexivity|]. constructor; [|exact F].
    split; [exact SH|exact HO].
Qed.

Lemma leaves_entry cd n o it1 it2 : leaves cd n o it1 -> leaves cd n o it2 -> i_entry it1 = i_entry it2.
Proof. intros A B. inversion A; subst; inversion B; subst; reflexivity. Qed.

Lemma written_agree cd cfg sched s s0 l : codec_ok cd -> Forall op_good l -> Forall (fun o => dropped o = false) l ->
  let '(xs, r, w) := run_archive cd sched l in
  let d := w_bytes w in
  r = Ok tt -> Forall (fun x => worked (snd x) = true) xs -> unambiguous cd cfg l xs (w_zip64 w) d ->
  Forall (fun x => streamable cd (snd x)) (succeeded false xs) -> succeeded false xs <> [] ->
  s_data s = d -> nofail (s_sched s) -> stands s0 d 0 ->
  forall n, (length (succeeded false xs) < n)%nat ->
  exists f zs, fst (file cfg s) = Ok f /\ front_to_back cd cfg n s0 = Ok zs /\
    Forall2 (fun x e => stored_bytes (en_filename (fst x)) = stored_bytes (en_filename (st_entry e)) /\
      en_compression (fst x) = en_compression (st_entry e) /\ en_date (fst x) = en_date (st_entry e)) zs (f_entries f) /\
    (forall i no64 o data, nth_error (succeeded false xs) (N.to_nat i) = Some (no64, o) -> holds cd o data ->
       (forall it, leaves cd no64 o it -> straight it) ->
       read_entry cd f i s = Ok data /\ option_map snd (nth_error zs (N.to_nat i)) = Some data).
Proof.
  intros OK G DR. pose proof (read_back cd cfg sched s l OK G) as RB. pose proof (archive_walk cd cfg sched s0 l OK G DR) as AW.
  destruct (run_archive cd sched l) as [[xs r] w]. cbv zeta in *. intros R WK U ST NE SD N S0 n Hn.
  assert (L : len (w_bytes w) < 0x10000000000000000) by (now destruct U).
  destruct (RB R U SD N) as (f & F1 & _ & _ & _ & F2 & F3). destruct (walk_all cd cfg _ _ (AW R WK L ST NE S0) n Hn) as (zs & Z1 & Z2).
  exists f, zs. split; [exact F1|]. split; [exact Z1|]. clear - F2 F3 Z2. split.
  - clear F3. revert zs Z2. induction F2 as [|x e l es (it & A1 & A2 & _) F2 IH]; intros zs Z2; inversion Z2 as [|? z ? zs' ((it' & B1 & B2) & _) Z3]; subst; [constructor|].
    constructor; [|now apply IH]. destruct A2 as (A3 & _ & A4 & A5 & _). destruct B2 as (B3 & B4 & B5 & _).
    rewrite A3, A4, A5, B3, B4, B5. unfold i_name. rewrite (leaves_entry _ _ _ _ _ A1 B1). auto.
  - intros i no64 o data H1 H2 H3. destruct (F3 i no64 o data H1 H2 H3) as (F4 & _). split; [exact F4|]. clear - Z2 H1 H2.
    revert H1. generalize (N.to_nat i). induction Z2 as [|x z l zs (_ & H) Z2 IH]; intros [|k] E; try discriminate E; [|now apply IH].
    injection E as ->. cbn. f_equal. now apply H.
Qed.

(** ** Sizes *)
Lemma size_told cd cfg sched s l : codec_ok cd -> Forall op_good l ->
  let '(xs, r, w) := run_archive cd sched l in
  let d := w_bytes w in
  r = Ok tt -> unambiguous cd cfg l xs (w_zip64 w) d -> s_data s = d -> nofail (s_sched s) ->
  exists f, fst (file cfg s) = Ok f /\
    forall i no64 o data, nth_error (succeeded false xs) (N.to_nat i) = Some (no64, o) -> holds cd o data ->
      size_claimed o data -> (forall it, leaves cd no64 o it -> straight it) ->
      exists e, entry_at f i = Some e /\ read_entry cd f i s = Ok data /\ en_uncompressed_size (st_entry e) = len data.
Proof.
  intros OK G. pose proof (read_back cd cfg sched s l OK G) as RB. destruct (run_archive cd sched l) as [[xs r] w]. cbv zeta in *. intros R U SD N.
  destruct (RB R U SD N) as (f & F1 & _ & _ & _ & F2 & F3). exists f. split; [exact F1|]. intros i no64 o data H1 H2 H0 H3.
  destruct (F3 i no64 o data H1 H2 H3) as (F4 & _). clear - F2 F4 H1 H2 H0 H3.
  assert (X : exists e it, nth_error (f_entries f) (N.to_nat i) = Some e /\ leaves cd no64 o it /\ as_written (w_bytes w) it e).
  { revert H1. generalize (N.to_nat i). clear - F2. induction F2 as [|x e l es (it & A & B & _) F2 IH]; intros [|k] E; try discriminate E; [|now apply IH].
    injection E as ->. exists e, it. auto. }
  destruct X as (e & it & X1 & X2 & X3). exists e. split; [exact X1|]. split; [exact F4|]. pose proof (H3 it X2) as ST.
  assert (US : i_usize it = len data) by (destruct X2; inversion H2; subst; cbn in *; congruence).
  destruct X3 as (_ & _ & _ & _ & _ & _ & _ & _ & -> & _). unfold put_usize. unfold straight in ST. destruct (i_swapped it); [|exact US].
  now rewrite ST.
Qed.
