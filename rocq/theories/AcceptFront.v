(** What passes the strict check, read front to back. *)
From Verif Require Import Base BaseFacts SpecFormat SpecCrc SpecUtf8 SpecArchive SpecRead SpecWrite SpecStrict SpecStream SpecFront SpecAccept ZString ZDate Headers HeadersFacts Crc32 CrcFacts
  ExtraField ExtraFieldFacts Entry IO IOFacts Reader ReaderFacts EntryReader StreamReader OpenFacts TameFacts LfhFacts EntryReaderFacts EntryProofs ReadProofs
  StreamProofs StreamWalk RoundTrip FrontProofs StrictProofs AcceptProofs.
Arguments N.add : simpl never.
Arguments N.sub : simpl never.
Arguments N.mul : simpl never.

Lemma local_fields_at n fl m t dt crc cs us name x xs y : len name < 0x10000 -> len x < 0x10000 -> all_fields x = Some xs ->
  local_fields (local_header n fl m t dt crc cs us (len name) (len x) ++ name ++ x ++ y) = Some xs.
Proof.
  intros LN LX AF. unfold local_fields, local_header.
  pose proof (nums26 [(2%nat, n); (2%nat, fl); (2%nat, m); (2%nat, t); (2%nat, dt); (4%nat, crc); (4%nat, cs); (4%nat, us)] _ _ (name ++ x ++ y) eq_refl LN LX) as E.
  cbn [app] in E. rewrite E.
  rewrite !text_app. exact AF.
Qed.

(** ** The local header *)
Lemma local_next cfg r us cs c crc lcs lus x xs y s d p : method_of (r_method r) = Some c ->
  (r_needed r < 0x10000 /\ r_flags r < 0x10000 /\ r_method r < 0x10000 /\ r_time r < 0x10000 /\ r_date r < 0x10000 /\ crc < 0x100000000 /\
     lcs < 0x100000000 /\ lus < 0x100000000 /\ len (r_name r) < 0x10000 /\ len x < 0x10000) ->
  all_fields x = Some xs -> forallb plain_extra xs = true -> N.testbit (r_flags r) 0 = false -> (N.testbit (r_flags r) 3 = true -> c <> Stored) ->
  (N.testbit (r_flags r) 3 = false -> crc = r_crc r /\ local_sizes lus lcs xs = Some (us, cs)) ->
  stands s d p ->
  drop p d = local_header (r_needed r) (r_flags r) (r_method r) (r_time r) (r_date r) crc lcs lus (len (r_name r)) (len x) ++ r_name r ++ x ++ y ->
  exists z s1, stream_next cfg s = (Ok (Some {| rd_reader := er_new s1 c (if N.testbit (r_flags r) 3 then u64_max else cs); rd_entry := z; rd_descriptor := N.testbit (r_flags r) 3 |}), s1) /\
    stands s1 d (p + (30 + len (r_name r) + len x)) /\
    forall off content, met {| v_listing := r; v_usize := us; v_csize := cs; v_offset := off; v_content := content |} z.
Proof.
  intros MO (B1 & B2 & B3 & B4 & B5 & B6 & B7 & B8 & B9 & B10) AF PL NE NS SZ (<- & <- & N) D.
  destruct (local_header_from (r_needed r) (r_flags r) (r_method r) (r_time r) (r_date r) crc lcs lus (len (r_name r)) (len x)) as (hb & Eh & Lh & Hh); try assumption.
  rewrite Eh, <- !app_assoc in D.
  destruct (lfh_read_here cfg (s_data s) (s_pos s) hb (r_name r) x y D Lh) as (p' & R & RP); [now rewrite Hh|now rewrite Hh|].
  apply fields_inv in AF as (-> & XB). destruct (parses cfg lus lcs xs XB PL) as (ys & PY & FY).
  rewrite Hh in R, RP. unfold lfh_view in R, RP. cbn [l_compression l_uncompressed_size l_compressed_size l_flags] in R, RP.
  rewrite (method_of_inv _ _ MO), method_back in R, RP. cbn [rbind] in R, RP. rewrite PY in R, RP. cbn [rbind] in R, RP.
  rewrite gp_from_bits in R, RP. cbn [gp_data_descriptor gp_encrypted] in R, RP. rewrite NE in R, RP.
  assert (NS' : N.testbit (r_flags r) 3 && compression_eqb c Stored = false).
  { destruct (N.testbit (r_flags r) 3); [|reflexivity]. specialize (NS eq_refl). now destruct c. }
  rewrite NS' in R, RP. set (z := lfh_entry _ _ _ _) in R, RP. specialize (RP eq_refl).
  destruct (agrees_any (lfh_read cfg) s ltac:(auto with insens) N) as (q & Eq & _ & Nq).
  change (calm s) with (src (s_data s) (s_pos s)) in Eq. rewrite R in Eq. cbn [fst snd s_pos src] in Eq.
  assert (SI : N.testbit (r_flags r) 3 = false -> en_uncompressed_size z = us /\ en_compressed_size z = cs).
  { intro B. destruct (SZ B) as [_ S]. unfold z, lfh_entry. cbn [en_uncompressed_size en_compressed_size l_uncompressed_size l_compressed_size].
    unfold local_sizes in S. unfold found64 in FY. destruct (zip64_of xs) as [q0|].
    - destruct (widen lus q0) as [[u p1]|] eqn:W1; [|discriminate]. destruct (widen lcs p1) as [[c1 p2]|] eqn:W2; [|discriminate]. injection S as -> ->.
      destruct FY as [->|[-> ->]].
      + destruct (widened q0 lus lcs 0 us cs 0 p1 p2 p2 W1 W2 eq_refl) as (Z1 & Z2 & _). cbn [get_combined_sizes fst snd]. now rewrite Z1, Z2.
      + unfold widen in W1. destruct (lus =? 0xFFFFFFFF); [discriminate|]. injection W1 as -> <-.
        unfold widen in W2. destruct (lcs =? 0xFFFFFFFF); [discriminate|]. injection W2 as -> <-. now split.
    - rewrite FY. injection S as -> ->. now split. }
  assert (E : en_compression z = c /\ en_data_descriptor z = N.testbit (r_flags r) 3) by (now split).
  destruct E as (E1 & E2). unfold stream_next. rewrite Eq, E1, E2. exists z. eexists. split; [|split].
  - destruct (N.testbit (r_flags r) 3); [reflexivity|]. destruct (SI eq_refl) as [_ ->]. reflexivity.
  - split; [reflexivity|]. split; [|exact Nq]. cbn [s_pos]. exact RP.
  - intros off content. unfold met. cbn [v_listing v_usize v_csize v_offset].
    pose proof (detect_filename_spec (r_name r) (N.testbit (r_flags r) 11) ys) as RF.
    split; [exact (reads_as_stored _ _ _ _ _ RF)|]. split.
    { intros FL V. change (en_filename z) with (detect_filename (r_name r) (N.testbit (r_flags r) 11) ys).
      destruct RF as [_ _|_ NV|pre' t post' F' _ _ _|F' _ _|F' _ _]; try reflexivity; try (rewrite FL in F'; discriminate). now elim NV. }
    split; [now rewrite E1|]. split; [reflexivity|]. split; [exact E2|]. intro B. destruct (SZ B) as [-> _]. split; [reflexivity|now apply SI].
Qed.

(** ** The data and what follows it *)
Lemma data_passed cd c (desc : bool) cs content w tail y crc dc du z s1 d p : self_ending cd -> len d <= u64_max ->
  stands s1 d p -> drop p d = w ++ tail ++ y -> len w = cs -> unpack cd c w = Some content -> (desc = true -> c <> Stored) ->
  tail = (if desc then data_descriptor32 crc dc du else []) -> crc < 0x100000000 ->
  exists r s2, er_read_to_end cd (er_new s1 c (if desc then u64_max else cs)) = (Ok content, r) /\
    stream_done cd {| rd_reader := r; rd_entry := z; rd_descriptor := desc |} = Ok s2 /\ stands s2 d (p + len w + len tail).
Proof.
  intros SE LD (<- & <- & N) D LW U NS ET BC. set (lim := if desc then u64_max else cs) in *.
  set (win := take lim (drop (s_pos s1) (s_data s1))).
  assert (W : win = if desc then w ++ tail ++ y else w).
  { unfold win, lim. rewrite D. destruct desc; [|now apply take_app_exact]. rewrite <- D. apply take_all. rewrite len_drop. lia. }
  assert (DE : decoded cd c win = (content, true) /\ entry_span cd c win = Some (len w)).
  { rewrite W. unfold unpack in U. unfold decoded, entry_span. destruct desc.
    - specialize (NS eq_refl). destruct c; [easy|..]; destruct (dec cd _ w) as [o [k|]] eqn:DW; try discriminate; destruct (N.eqb_spec k (len w)) as [->|]; try discriminate;
        injection U as ->; rewrite (SE _ _ _ (tail ++ y) NS DW); now split.
    - destruct c; [injection U as ->; now split|..]; destruct (dec cd _ w) as [o [k|]] eqn:DW; try discriminate; destruct (N.eqb_spec k (len w)) as [->|]; try discriminate;
        injection U as ->; now split. }
  destruct DE as (DE & SP).
  assert (RE : fst (er_read_to_end cd (er_new s1 c lim)) = Ok content).
  { rewrite er_read_to_end_nofail by exact N. rewrite content_new. fold win. now rewrite DE. }
  destruct (er_read_to_end cd (er_new s1 c lim)) as [o r] eqn:E. cbn [fst] in RE. subst o. exists r.
  destruct (to_end_as_reads _ _ _ _ _ E) as (reads & HR).
  pose proof (done_spec cd s1 c lim reads z desc N) as H. destruct (er_reads cd reads (er_new s1 c lim)) as [xs r2]. destruct HR as (-> & HD). cbv zeta in H. fold win in H.
  rewrite DE in H. cbn [fst snd] in H. destruct H as (_ & _ & H). destruct (H HD _ SP) as (s' & S' & E').
  assert (AE : exists s2, after_entry desc s' = Ok s2 /\ stands s2 (s_data s1) (s_pos s1 + len w + len tail)).
  { destruct desc.
    - apply (drop_step (len w)) in D; [|reflexivity]. subst tail.
      destruct (descriptor_consumed s' (s_data s1) _ true false crc dc du y S' D BC ltac:(discriminate)) as (s2 & A & B). exists s2. split; [exact A|].
      unfold descriptor_taken in B. cbn [orb] in B. exact B.
    - subst tail. exists s'. split; [reflexivity|]. change (len (@nil byte)) with 0. now rewrite N.add_0_r. }
  destruct AE as (s2 & A1 & A2). exists s2. split; [reflexivity|]. split; [now rewrite E'|exact A2].
Qed.

(** * All entries *)
Lemma walk cfg cd d y dir : self_ending cd -> len d <= u64_max -> y = le 4 0x02014b50 ++ dir -> forall rs l pre, check_entries cd rs (len pre) l = true ->
  d = pre ++ l ++ y -> Forall (fun r => walkable d r = true) rs -> forall s, stands s d (len pre) ->
  exists vs, Forall2 (seated cd d) rs vs /\ forall n, (length vs < n)%nat -> exists zs, front_to_back cd cfg n s = Ok zs /\
    Forall2 (fun v z => met v (fst z) /\ snd z = v_content v) vs zs.
Proof.
  intros SE LD EY. induction rs as [|r rs IH]; intros l pre E ED WA s ST; cbn [check_entries] in E.
  - exists []. split; [constructor|]. intros [|n] Hn; [lia|]. cbn [front_to_back]. apply N.eqb_eq, len_nil0 in E. subst l. cbn [app] in ED.
    rewrite (said_next cfg s d (len pre) y (Ok None) ST); [exists []; split; [reflexivity|constructor]| |now apply said_end with dir].
    rewrite ED. now apply drop_app_exact.
  - destruct (measures r) as [[[us cs] off]|] eqn:M; [|discriminate].
    destruct (N.eqb_spec off (len pre)) as [->|]; [|discriminate]. destruct (N.eqb_spec (r_disk r) 0) as [DK|]; [|discriminate]. cbn [andb] in E.
    destruct (check_entry cd r us cs l) as [l'|] eqn:C; [|discriminate]. inversion WA as [|? ? W1 W2]; subst.
    unfold walkable in W1. rewrite M, text_app in W1.
    destruct (check_entry_split _ _ _ _ _ _ C) as (c & content & crc & lcs & lus & x & xs & z & MO & EL & BS & AF & LZ & U & LU & CR & SZ).
    subst us cs. pose proof BS as (_ & _ & _ & _ & _ & _ & _ & _ & BN & BX).
    rewrite EL in W1 at 1. rewrite <- !app_assoc in W1. unfold passable in W1. rewrite (local_fields_at _ _ _ _ _ _ _ _ _ _ xs _ BN BX AF) in W1.
    apply andb_true_iff in W1 as [W1 W3]. apply andb_true_iff in W1 as [W1 W4]. apply negb_true_iff in W4.
    assert (NS : N.testbit (r_flags r) 3 = true -> c <> Stored).
    { intros B ->. rewrite B in W3. cbn [negb orb] in W3. apply andb_true_iff in W3 as [W3 _]. apply method_of_inv in MO. rewrite MO in W3. discriminate. }
    set (d := pre ++ l ++ le 4 0x02014b50 ++ dir) in *.
    set (hd := local_header (r_needed r) (r_flags r) (r_method r) (r_time r) (r_date r) crc lcs lus (len (r_name r)) (len x)) in *.
    set (tl := local_tail r (len content) (len z) xs) in *.
    assert (D : drop (len pre) d = hd ++ r_name r ++ x ++ z ++ tl ++ l' ++ le 4 0x02014b50 ++ dir).
    { unfold d. rewrite drop_app_exact by reflexivity. rewrite EL. now rewrite <- !app_assoc. }
    destruct (local_next cfg r (len content) (len z) c crc lcs lus x xs _ s d (len pre) MO BS AF W1 W4 NS SZ ST D) as (ze & s1 & NX & S1 & MT).
    assert (LH : len hd = 30) by reflexivity.
    assert (D1 : drop (len pre + (30 + len (r_name r) + len x)) d = z ++ tl ++ l' ++ le 4 0x02014b50 ++ dir).
    { replace (hd ++ r_name r ++ x ++ z ++ tl ++ l' ++ le 4 0x02014b50 ++ dir) with ((hd ++ r_name r ++ x) ++ z ++ tl ++ l' ++ le 4 0x02014b50 ++ dir) in D by (now rewrite <- !app_assoc).
      apply (drop_step (len (hd ++ r_name r ++ x))) in D; [|reflexivity]. rewrite <- D. f_equal. rewrite !len_app, LH. lia. }
    assert (BC : r_crc r < 0x100000000) by (rewrite <- CR, <- crc32_is_spec; apply crc32_bound).
    assert (ET : tl = if N.testbit (r_flags r) 3 then data_descriptor32 (r_crc r) (len z) (len content) else []).
    { unfold tl, local_tail. destruct (N.testbit (r_flags r) 3); [|reflexivity]. cbn [negb orb] in W3. apply andb_true_iff in W3 as [_ W3].
      destruct (zip64_of xs); [discriminate|reflexivity]. }
    destruct (data_passed cd c _ (len z) content z tl _ (r_crc r) _ _ ze s1 d _ SE LD S1 D1 eq_refl U NS ET BC) as (rr & s2 & RE & DN & S2).
    replace (len pre + (len l - len l')) with (len (pre ++ hd ++ r_name r ++ x ++ z ++ tl)) in E by (rewrite EL, !len_app; lia).
    destruct (IH l' (pre ++ hd ++ r_name r ++ x ++ z ++ tl) E ltac:(unfold d; rewrite EL; now rewrite <- !app_assoc) W2 s2) as (vs & SV & FB).
    { destruct S2 as (X1 & X2 & X3). split; [exact X1|]. split; [|exact X3]. rewrite X2, !len_app, LH. lia. }
    exists ({| v_listing := r; v_usize := len content; v_csize := len z; v_offset := len pre; v_content := content |} :: vs). split.
    + constructor; [|exact SV]. exists c. split; [reflexivity|]. split; [exact M|]. split; [exact MO|]. split; [exact DK|].
      exists pre, (r_name r), x, z, (tl ++ l' ++ le 4 0x02014b50 ++ dir),
        [(2%nat, r_needed r); (2%nat, r_flags r); (2%nat, r_method r); (2%nat, r_time r); (2%nat, r_date r); (4%nat, crc); (4%nat, lcs); (4%nat, lus)].
      split; [unfold d; rewrite EL; rewrite <- !app_assoc; reflexivity|]. split; [reflexivity|]. now repeat split.
    + intros [|n] Hn; [cbn in Hn; lia|]. cbn [length] in Hn. destruct (FB n ltac:(lia)) as (zs & FZ & F2).
      cbn [front_to_back]. rewrite NX. cbn [fst rd_reader rd_entry rd_descriptor]. rewrite RE. cbn [rbind]. rewrite DN. cbn [rbind]. rewrite FZ. cbn [rbind].
      exists ((ze, content) :: zs). split; [reflexivity|]. constructor; [|exact F2]. split; [apply MT|reflexivity].
Qed.

Lemma accepted_front cfg cd s : strict cd (s_data s) = true -> self_ending cd -> len (s_data s) <= u64_max ->
  (forall rs, SpecAccept.directory (s_data s) = Some rs -> rs <> [] /\ Forall (fun r => walkable (s_data s) r = true) rs) ->
  s_pos s = 0 -> nofail (s_sched s) ->
  exists vs, sights cd (s_data s) = Some vs /\ forall n, (length vs < n)%nat -> exists zs, front_to_back cd cfg n s = Ok zs /\
    Forall2 (fun v z => met v (fst z) /\ snd z = v_content v) vs zs.
Proof.
  set (d := s_data s). intros ST SE LD PD P0 NF. unfold strict in ST. unfold SpecAccept.directory in PD.
  destruct (directory_at d) as [[front [[n size] off]]|] eqn:DA; [|discriminate]. apply andb_true_iff in ST as [OS ST].
  destruct (text off front) as [[body dir]|] eqn:T; [|discriminate]. destruct (listings (length dir) dir) as [rs|] eqn:LS; [|discriminate].
  apply andb_true_iff in ST as [LR CE]. destruct (PD rs eq_refl) as [NE WA].
  assert (DR : SpecAccept.directory d = Some rs) by (unfold SpecAccept.directory; now rewrite DA, T).
  apply text_inv in T as [-> LB]. destruct (directory_before _ _ _ DA) as (y & ED). rewrite <- app_assoc in ED.
  assert (EY : exists w, dir = le 4 0x02014b50 ++ w).
  { destruct dir as [|b dir]; [injection LS as <-; now elim NE|]. cbn [listings length] in LS. remember (b :: dir) as l0 eqn:EL. clear EL.
    destruct (read_listing l0) as [[r l']|] eqn:R; [|discriminate]. apply read_listing_sig in R. exact R. }
  destruct EY as (w & ->).
  destruct (walk cfg cd d ((le 4 0x02014b50 ++ w) ++ y) (w ++ y) SE LD ltac:(now rewrite <- app_assoc) rs body [] CE ED WA s) as (vs & SV & FB).
  { split; [reflexivity|]. now split. }
  exists vs. split; [unfold sights; rewrite DR; now apply see_all_seated|exact FB].
Qed.
