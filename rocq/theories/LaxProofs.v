(** Proofs about the check that overlooks some things. *)
From Verif Require Import Base BaseFacts SpecFormat SpecCrc SpecArchive SpecRead SpecWrite SpecStrict SpecLax SpecInterop ZString ZDate Headers HeadersFacts ExtraField Entry
  IO Reader EntryReader Writer WriterFacts WholeFacts OpenFacts RecordFacts HistFacts CloseFacts RoundTrip StreamFacts WriteProofs StreamWalk Crc32 CrcFacts TextFacts ChainFacts StrictProofs EndProofs.
Arguments N.mul : simpl never.
Arguments N.add : simpl never.
Arguments N.sub : simpl never.

(** ** Overlooking nothing it is the strict check *)
Lemma lax_entry_strict cd r us cs l : lax_entry false false cd r us cs l = check_entry cd r us cs l.
Proof. reflexivity. Qed.
Lemma lax_entries_strict cd rs : forall pos l, lax_entries false false cd rs pos l = check_entries cd rs pos l.
Proof.
  induction rs as [|r rs IH]; intros pos l; [reflexivity|]. cbn [lax_entries check_entries]. destruct (measures r) as [[[us cs] off]|]; [|reflexivity].
  rewrite lax_entry_strict. destruct (check_entry cd r us cs l); [|reflexivity]. now rewrite IH.
Qed.
Lemma lax_strict cd d : lax false false cd d = strict cd d.
Proof.
  unfold lax, strict. destruct (directory_at d) as [[front [[n size] off]]|]; [|reflexivity]. destruct (text off front) as [[body dir]|]; [|reflexivity].
  destruct (listings (length dir) dir); [|reflexivity]. now rewrite lax_entries_strict.
Qed.

(** ** Extra fields with a ZIP64 one *)
Definition narrow_id (x : extra_field) : Prop := spec_id x < 0x10000.
Lemma plain_narrow x : plain_field x -> narrow_id x.
Proof. unfold narrow_id. destruct x as [z|u|u|id sz c]; cbn; try reflexivity. now intros [? _]. Qed.
Lemma fields_wide xs : Forall narrow_id xs -> len (spec_extras xs) < 0x10000 -> forall n, (length (spec_extras xs) <= n)%nat ->
  fields n (spec_extras xs) = Some (map (fun x => (spec_id x, spec_payload x)) xs).
Proof.
  induction 1 as [|x xs P _ IH]; intros L n F; [now destruct n|].
  unfold spec_extras in *. cbn [map concat] in *. set (rest := concat (map (fun x => extra (spec_id x) (spec_payload x)) xs)) in *.
  unfold extra in *. rewrite <- app_assoc in *. rewrite !len_app in L.
  assert (E : nums [2; 2]%nat (record [(2%nat, spec_id x); (2%nat, len (spec_payload x))] ++ spec_payload x ++ rest) = Some ([spec_id x; len (spec_payload x)], spec_payload x ++ rest)).
  { apply nums_at with (fs := [(2%nat, spec_id x); (2%nat, len (spec_payload x))]); try reflexivity. widths. }
  destruct n as [|n].
  { rewrite app_length in F. cbn in F. lia. }
  cbn [fields].
  remember (record [(2%nat, spec_id x); (2%nat, len (spec_payload x))] ++ spec_payload x ++ rest) as l eqn:EL.
  destruct l as [|b l]; [discriminate|]. rewrite E, text_app. rewrite IH; [reflexivity|lia|].
  rewrite EL, !app_length in F. cbn [length record map concat fst snd] in F. unfold record in F. cbn in F. lia.
Qed.
Lemma all_fields_wide xs : Forall narrow_id xs -> len (spec_extras xs) < 0x10000 ->
  all_fields (spec_extras xs) = Some (map (fun x => (spec_id x, spec_payload x)) xs).
Proof. intros P L. unfold all_fields. now apply fields_wide. Qed.
Lemma zip64_found b z a : Forall plain_field b -> zip64_of (map (fun x => (spec_id x, spec_payload x)) (b ++ [XZip64 z] ++ a)) = Some (spec_payload (XZip64 z)).
Proof.
  induction 1 as [|x xs P _ IH]; [reflexivity|]. cbn [map zip64_of app]. replace (spec_id x =? 1) with false; [exact IH|].
  symmetry. apply N.eqb_neq. destruct x as [?|u|u|id sz c]; cbn; try discriminate; [easy|]. now destruct P as (_ & ? & _).
Qed.
Lemma narrow_split b zz a : Forall plain_field b -> all_zip64 zz -> Forall plain_field a -> Forall narrow_id (b ++ zz ++ a).
Proof.
  intros B Z A. apply Forall_app; split; [|apply Forall_app; split].
  - eapply Forall_impl; [|exact B]. exact plain_narrow.
  - eapply Forall_impl; [|exact Z]. intros x [z ->]. reflexivity.
  - eapply Forall_impl; [|exact A]. exact plain_narrow.
Qed.

(** ** Records of the directory *)
Definition listing64 (a : member) : listing :=
  {| r_needed := a_needed a; r_flags := a_flags a; r_method := compression_to (a_method a); r_time := a_time a; r_date := a_date a;
     r_crc := a_crc a; r_csize := kept (a_c64 a) 0xFFFFFFFF (a_csize a); r_usize := kept (a_u64 a) 0xFFFFFFFF (a_usize a);
     r_disk := kept (a_d64 a) 0xFFFF (a_disk a); r_offset := kept (a_o64 a) 0xFFFFFFFF (a_offset a); r_name := a_name a;
     r_extra := map (fun x => (spec_id x, spec_payload x)) (a_extras a); r_comment := a_comment a; r_iattr := a_iattr a; r_eattr := a_eattr a |}.
Lemma kept_bound b bound p v : p < bound -> fits b bound v -> kept b p v < bound.
Proof. unfold fits, kept. now destruct b. Qed.
Lemma extras_narrow a : member_ok a -> Forall narrow_id (a_extras a).
Proof. intros (_&_&_&_&_&_&_&_&_&_&_&_&_&_&_&_&_&B&A). apply narrow_split; [exact B|apply in_a_zip64|exact A]. Qed.
Lemma read_listing_wide a r : member_ok a -> a_d64 a = false -> read_listing (member_record a ++ r) = Some (listing64 a, r).
Proof.
  intros C D. pose proof (extras_narrow a C) as PX.
  destruct C as (W1&W2&W3&W4&W5&W6&W7&W8&W9&W10&W11&W12&_&_&L1&L2&L3&_). rewrite D in W12.
  unfold read_listing, member_record, central_header. rewrite <- !app_assoc.
  pose proof (method_bound (a_method a)) as MB.
  pose proof (kept_bound (a_u64 a) 0x100000000 0xFFFFFFFF _ eq_refl W9) as K1. pose proof (kept_bound (a_c64 a) 0x100000000 0xFFFFFFFF _ eq_refl W10) as K2.
  pose proof (kept_bound (a_o64 a) 0x100000000 0xFFFFFFFF _ eq_refl W11) as K3.
  erewrite nums_at; [|reflexivity| |reflexivity|reflexivity]; [|widths; rewrite D; exact W12].
  cbn [map snd]. rewrite N.eqb_refl. cbn [negb]. rewrite text_app, text_app, text_app, all_fields_wide by assumption. reflexivity.
Qed.
Definition wide_member (a : member) : Prop := member_ok a /\ a_d64 a = false.
Lemma listings_wide ms : Forall wide_member ms -> forall n, (length (members ms) <= n)%nat -> listings n (members ms) = Some (map listing64 ms).
Proof.
  induction 1 as [|a ms [C D] _ IH]; intros n L; [now destruct n|]. unfold members in *. cbn [map concat] in *. rewrite app_length in L.
  pose proof (member_record_pos a) as P. destruct n as [|n]; [lia|]. cbn [listings].
  pose proof (read_listing_wide a (concat (map member_record ms)) C D) as E.
  remember (member_record a ++ concat (map member_record ms)) as l eqn:EL. destruct l as [|b l].
  { apply (f_equal (@length byte)) in EL. rewrite app_length in EL. cbn in EL. lia. }
  rewrite E, IH by lia. reflexivity.
Qed.
Lemma widen_kept b v p : (b = false -> v <> 0xFFFFFFFF) -> v < 0x10000000000000000 ->
  widen (kept b 0xFFFFFFFF v) (opt_field 8 (when b v) ++ p) = Some (v, p).
Proof.
  intros N L. unfold widen, kept, when, opt_field. destruct b; cbn [app].
  - rewrite N.eqb_refl. erewrite (nums_at [8%nat] [v] [(8%nat, v)]); [reflexivity| |widths|reflexivity|reflexivity].
    unfold record. cbn [map concat fst snd]. now rewrite app_nil_r.
  - destruct (N.eqb_spec v 0xFFFFFFFF); [now destruct N|reflexivity].
Qed.
Lemma fits64 b v : fits b 0x100000000 v -> v < 0x10000000000000000.
Proof. unfold fits. destruct b; lia. Qed.
Lemma measures_wide a : wide_member a -> (a_zip64 a <> [] -> a_o64 a = false -> a_offset a <> 0xFFFFFFFF) ->
  measures (listing64 a) = Some (a_usize a, a_csize a, a_offset a).
Proof.
  intros [C D] O. unfold measures, listing64. cbn [r_extra r_usize r_csize r_offset]. unfold a_extras.
  destruct C as (_&_&_&_&_&_&_&_&W9&W10&W11&W12&N1&N2&_&_&_&B&A). apply fits64 in W9, W10, W11.
  assert (Z : a_zip64 a = [] /\ a_u64 a = false /\ a_c64 a = false /\ a_o64 a = false \/
    a_zip64 a = [XZip64 {| zf_uncompressed := when (a_u64 a) (a_usize a); zf_compressed := when (a_c64 a) (a_csize a);
               zf_offset := when (a_o64 a) (a_offset a); zf_disk := None |}]).
  { unfold a_zip64. rewrite D. destruct (a_u64 a), (a_c64 a), (a_o64 a); cbn; auto. }
  destruct Z as [(Z & F1 & F2 & F3)|Z].
  - rewrite Z. cbn [app]. rewrite no_zip64 by (apply Forall_app; now split). rewrite F1, F2, F3. reflexivity.
  - rewrite Z in *. rewrite zip64_found by exact B. cbn [spec_payload zf_uncompressed zf_compressed zf_offset zf_disk opt_field].
    rewrite widen_kept by (auto; apply N1; discriminate). rewrite widen_kept by (auto; apply N2; discriminate).
    rewrite widen_kept by (auto; apply O; discriminate). reflexivity.
Qed.

(** ** One entry *)
Definition is_wide (it : item) : bool := in64 it || off64 it.
Definition enough_for (ver : bool) (it : item) (v : N) : bool :=
  least_version (compression_to (en_compression (i_entry it))) (dir_name (i_name it)) (negb ver && is_wide it) <=? v.
Definition sound_item (cd : codec) (it : item) : bool :=
  match unpack cd (en_compression (i_entry it)) (i_data it) with Some c => (len c =? i_usize it) && (crc32_spec c =? i_crc it) | None => false end.
Definition item_passes (ver dsc : bool) (cd : codec) (it : item) (v : N) : bool :=
  enough_for ver it v && sound_item cd it && (dsc || negb (i_stream it && in64 it)).

Lemma local_found it b t : Forall plain_field b -> Forall plain_field t ->
  zip64_of (map (fun x => (spec_id x, spec_payload x)) (b ++ local_zip64 it ++ t)) =
  if in64 it then Some (concat (map spec_payload (local_zip64 it))) else None.
Proof.
  intros B T. assert (Z : local_zip64 it = [] /\ in64 it = false \/ exists z, local_zip64 it = [XZip64 z] /\ in64 it = true).
  { unfold local_zip64, in64. destruct (i_stream it); [destruct (i_no64 it)|destruct (i_big it)]; cbn; first [left; split; reflexivity|right; eexists; split; reflexivity]. }
  destruct Z as [[-> ->]|(z & -> & ->)].
  - cbn [app]. apply no_zip64, Forall_app. now split.
  - rewrite zip64_found by exact B. cbn [map concat]. now rewrite app_nil_r.
Qed.
Lemma central_found a : member_ok a -> match zip64_of (map (fun x => (spec_id x, spec_payload x)) (a_extras a)) with Some _ => true | None => false end
  = (a_u64 a || a_c64 a || a_o64 a || a_d64 a).
Proof.
  intros (_&_&_&_&_&_&_&_&_&_&_&_&_&_&_&_&_&B&A). unfold a_extras, a_zip64. destruct (a_u64 a || a_c64 a || a_o64 a || a_d64 a).
  - now rewrite zip64_found.
  - cbn [app]. rewrite no_zip64; [reflexivity|]. apply Forall_app. now split.
Qed.
Lemma local_told it xs : i_stream it = false -> item_fine it ->
  zip64_of xs = (if in64 it then Some (concat (map spec_payload (local_zip64 it))) else None) ->
  local_sizes ((if i_big it then 0xFFFFFFFF else i_usize it) mod 0x100000000) ((if i_big it then 0xFFFFFFFF else i_csize it) mod 0x100000000) xs
  = Some (i_usize it, i_csize it).
Proof.
  intros S (_ & _ & HU & HC & _) Z. unfold local_sizes. rewrite Z. unfold in64, local_zip64. rewrite S. destruct (i_big it) eqn:B.
  - change (0xFFFFFFFF mod 0x100000000) with 0xFFFFFFFF. cbn [map concat zip64_extra spec_payload zf_uncompressed zf_compressed zf_offset zf_disk opt_field]. rewrite <- !app_assoc.
    pose proof (widen_kept true (i_usize it)) as W1. cbn [kept when opt_field] in W1. rewrite W1 by (try discriminate; assumption).
    pose proof (widen_kept true (i_csize it)) as W2. cbn [kept when opt_field] in W2. rewrite W2 by (try discriminate; assumption). reflexivity.
  - unfold i_big, is_over in B. apply orb_false_iff in B as [B1 B2]. now rewrite !N.mod_small by lia.
Qed.
Lemma long_descriptor crc csize usize r l : csize < 0xFFFFFFFFFFFFFFFF ->
  match nums [4; 4; 8; 8]%nat (data_descriptor32 crc 0xFFFFFFFF 0xFFFFFFFF ++ l) with
  | Some ([dsig; dcrc; dcs; dus], l) => if (dsig =? 0x08074b50) && (dcrc =? r) && (dcs =? csize) && (dus =? usize) then Some l else None
  | _ => None
  end = None.
Proof.
  intros C. unfold data_descriptor32, record. cbn [map concat fst snd]. rewrite app_nil_r, <- !app_assoc. cbn [nums].
  change (N.of_nat 4) with (len (le 4 0x08074b50)) at 1. rewrite text_app. change (N.of_nat 4) with (len (le 4 crc)) at 1. rewrite text_app.
  rewrite app_assoc. change (N.of_nat 8) with (len (le 4 0xFFFFFFFF ++ le 4 0xFFFFFFFF)) at 1. rewrite text_app.
  assert (V : value (le 4 0xFFFFFFFF ++ le 4 0xFFFFFFFF) = 0xFFFFFFFFFFFFFFFF) by reflexivity.
  rewrite V. destruct (text (N.of_nat 8) l) as [[b l']|]; [|reflexivity]. replace (0xFFFFFFFFFFFFFFFF =? csize) with false by lia.
  now rewrite !andb_false_r.
Qed.

Lemma lax_entry_ok ver dsc cd it a v f lx rest : laid_out it a v f lx -> item_fine it -> member_ok a -> straight it -> i_csize it < 0xFFFFFFFFFFFFFFFF ->
  lax_entry ver dsc cd (listing64 a) (a_usize a) (a_csize a) (item_image it v f lx ++ rest) = if item_passes ver dsc cd it v then Some rest else None.
Proof.
  intros LO IF CM ST LC.
  pose proof IF as ((WT & Pl) & Hcrc & HU & HC & HO). destruct WT as (Wd & Wt & Wc & _).
  destruct (texts_split _ _ _ _ _ _ (in_local it) Pl (lo_local _ _ _ _ _ LO)) as (b & t & E & Pb & Pt).
  assert (Plx : Forall narrow_id lx) by (rewrite E; apply narrow_split; [exact Pb|apply in_local|exact Pt]).
  pose proof (local_found it b t Pb Pt) as ZF. rewrite <- E in ZF.
  destruct (lo_fits _ _ _ _ _ LO) as (L1 & _ & L2 & _). pose proof (needs_bound _ _ (lo_version _ _ _ _ _ LO)) as VB.
  assert (P : put_csize it = i_csize it /\ put_usize it = i_usize it).
  { unfold put_csize, put_usize, straight in *. destruct (i_swapped it); [now rewrite ST|auto]. }
  destruct P as [P1 P2].
  pose proof (central_found a CM) as CF. rewrite (lo_u64 _ _ _ _ _ LO), (lo_c64 _ _ _ _ _ LO), (lo_o64 _ _ _ _ _ LO), (lo_d64 _ _ _ _ _ LO), orb_diag, orb_false_r in CF.
  unfold lax_entry, item_image, local_image. cbv zeta. rewrite <- !app_assoc. rewrite local_header_mod.
  erewrite nums_at; [|reflexivity| |reflexivity|reflexivity].
  2:{ pose proof (method_bound (en_compression (i_entry it))). widths; try (apply N.mod_lt; discriminate);
      try (destruct (i_stream it), f; reflexivity); destruct (i_stream it); assumption. }
  cbn [map snd]. rewrite text_app, text_app, all_fields_wide by assumption.
  rewrite (lo_usize _ _ _ _ _ LO), (lo_csize _ _ _ _ _ LO), P1, P2. unfold i_csize at 1. rewrite text_app, method_of_ok.
  unfold listing64. cbn [r_needed r_flags r_method r_time r_date r_crc r_csize r_usize r_name r_extra]. rewrite CF.
  assert (L64 : match zip64_of (map (fun x => (spec_id x, spec_payload x)) lx) with Some _ => true | None => false end = in64 it) by (rewrite ZF; now destruct (in64 it)).
  rewrite !L64. clear L64.
  rewrite (lo_needed _ _ _ _ _ LO), (lo_flags _ _ _ _ _ LO), (lo_method _ _ _ _ _ LO), (lo_time _ _ _ _ _ LO), (lo_date _ _ _ _ _ LO), (lo_crc _ _ _ _ _ LO), (lo_name _ _ _ _ _ LO).
  rewrite flag_bit3, !N.eqb_refl, same_bytes_refl. cbn [andb orb].
  fold (sound_item cd it). fold (in64 it). rewrite orb_assoc, orb_diag. fold (is_wide it). fold (enough_for ver it v).
  unfold item_passes, descriptor_image. destruct (i_stream it) eqn:S; cbn [andb orb negb].
  - destruct (enough_for ver it v); cbn [andb]; [|reflexivity]. destruct (sound_item cd it); cbn [andb]; [|reflexivity].
    unfold in64. rewrite S. destruct (i_no64 it) eqn:N6; cbn [negb andb]; rewrite ?andb_false_r, ?andb_true_r, ?orb_true_r, ?orb_false_r.
    + rewrite P1, P2. unfold data_descriptor32. pose proof (lo_c64 _ _ _ _ _ LO) as K1. pose proof (lo_u64 _ _ _ _ _ LO) as K2. unfold in64 in K1, K2. rewrite S, N6 in K1, K2. cbn [negb] in K1, K2.
      destruct CM as (_&_&_&_&_&_&_&_&W9&W10&_). unfold fits in W9, W10. rewrite K2 in W9. rewrite K1 in W10. rewrite (lo_usize _ _ _ _ _ LO), P2 in W9. rewrite (lo_csize _ _ _ _ _ LO), P1 in W10.
      erewrite nums_at; [|reflexivity| |reflexivity|reflexivity]; [|widths]. cbn [map snd]. now rewrite !N.eqb_refl.
    + destruct dsc; cbn [andb orb].
      * unfold data_descriptor32. erewrite nums_at; [|reflexivity| |reflexivity|reflexivity]; [|widths]. cbn [map snd]. now rewrite !N.eqb_refl.
      * now apply long_descriptor.
  - rewrite (local_told it _ S IF ZF), !N.eqb_refl. cbn [andb]. rewrite orb_true_r, andb_true_r. now destruct (enough_for ver it v && sound_item cd it).
Qed.

(** ** The whole archive *)
Definition fair_piece (q : piece) : Prop :=
  let it := p_item q in let a := p_member q in
  laid_out it a (p_version q) (p_flag q) (p_local q) /\ item_fine it /\ member_ok a /\ straight it /\ i_csize it < 0xFFFFFFFFFFFFFFFF /\
  (in64 it = true -> off64 it = false -> i_off it <> 0xFFFFFFFF).
Definition p_passes (ver dsc : bool) (cd : codec) (q : piece) : bool := item_passes ver dsc cd (p_item q) (p_version q).
Lemma fair_wide q : fair_piece q -> wide_member (p_member q).
Proof. intros (LO & _ & M & _). exact (conj M (lo_d64 _ _ _ _ _ LO)). Qed.
Lemma fair_measures q : fair_piece q -> measures (listing64 (p_member q)) = Some (a_usize (p_member q), a_csize (p_member q), a_offset (p_member q)).
Proof.
  intros F. apply measures_wide; [now apply fair_wide|]. destruct F as (LO & _ & _ & _ & _ & O). intros Z O64. rewrite (lo_offset _ _ _ _ _ LO).
  rewrite (lo_o64 _ _ _ _ _ LO) in O64. apply O; [|exact O64]. unfold a_zip64 in Z.
  rewrite (lo_u64 _ _ _ _ _ LO), (lo_c64 _ _ _ _ _ LO), (lo_o64 _ _ _ _ _ LO), (lo_d64 _ _ _ _ _ LO), O64 in Z. now destruct (in64 (p_item q)).
Qed.
Lemma lax_entries_ok ver dsc cd qs : Forall fair_piece qs -> forall pos, chained pos qs ->
  lax_entries ver dsc cd (map listing64 (map p_member qs)) pos (concat (map p_image qs)) = forallb (p_passes ver dsc cd) qs.
Proof.
  induction 1 as [|q qs F _ IH]; intros pos CH; [reflexivity|].
  destruct CH as [C1 C2]. cbn [map concat lax_entries]. rewrite (fair_measures q F).
  destruct F as (LO & IF & CM & ST & LC & O).
  pose proof (lax_entry_ok ver dsc cd _ _ _ _ _ (concat (map p_image qs)) LO IF CM ST LC) as E. fold (p_image q) in E.
  rewrite E. fold (p_passes ver dsc cd q).
  cbn [listing64 r_disk]. rewrite (lo_offset _ _ _ _ _ LO), (lo_d64 _ _ _ _ _ LO), (lo_disk _ _ _ _ _ LO), C1, N.eqb_refl. cbn [kept andb forallb].
  change (0 =? 0) with true. cbn [andb].
  destruct (p_passes ver dsc cd q); [|reflexivity]. cbn [andb].
  rewrite len_app. replace (len (p_image q) + len (concat (map p_image qs)) - len (concat (map p_image qs))) with (len (p_image q)) by lia.
  now apply IH.
Qed.
Lemma image_bound q : 30 + i_csize (p_item q) <= len (p_image q).
Proof. unfold p_image, item_image, local_image. rewrite !len_app. change (len (local_header _ _ _ _ _ _ _ _ _ _)) with 30. unfold i_csize. lia. Qed.
Lemma chained_each qs : forall pos tail, chained pos qs -> Forall (fun q => exists a b, concat (map p_image qs) ++ tail = a ++ p_image q ++ b /\ i_off (p_item q) = pos + len a) qs.
Proof.
  induction qs as [|q qs IH]; intros pos tail CH; constructor; destruct CH as [C1 C2].
  - exists [], (concat (map p_image qs) ++ tail). cbn [map concat app]. rewrite <- app_assoc. split; [reflexivity|]. change (len (@nil byte)) with 0. lia.
  - eapply Forall_impl; [|exact (IH _ tail C2)]. intros p (a & b & E & O). exists (p_image q ++ a), b. cbn [map concat]. rewrite <- !app_assoc, E, len_app. split; [reflexivity|lia].
Qed.
Lemma p_image_signed q : exists r, p_image q = le 4 0x04034b50 ++ r.
Proof. unfold p_image, item_image, local_image, local_header, record. cbn [map concat fst snd]. rewrite <- !app_assoc. eexists. reflexivity. Qed.

(** the archive, entry by entry *)
Lemma lax_pieces ver dsc cd sched xs w0 w : codec_ok cd -> ChainFacts.chain cd (zw_new sched) xs w0 -> zw_close w0 = (Ok tt, w) ->
  Forall (fun x => op_good (fst x)) xs -> Forall (fun x => dropped (fst x) = false) xs ->
  Forall (fun x => worked (snd x) = true) xs -> len (w_bytes w) < 0x10000000000000000 -> (w_zip64 w = true \/ len (w_bytes w) <= 0xFFFFFFFF) ->
  others_clear (w_zip64 w) (last_comment (map fst xs)) (w_bytes w) -> Forall (unexchanged cd) (succeeded false xs) ->
  (len (w_bytes w) <= 0xFFFFFFFF \/ Forall (no_placeholder cd) (succeeded false xs) /\ ~ found_at (le 4 0x04034b50) (w_bytes w) 0xFFFFFFFF) ->
  exists qs, Forall2 (bond cd) (succeeded false xs) qs /\ (len (w_bytes w) <= 0xFFFFFFFF -> Forall (fun q => i_csize (p_item q) <= 0xFFFFFFFF /\ i_off (p_item q) <= 0xFFFFFFFF) qs) /\
    lax ver dsc cd (w_bytes w) = forallb (p_passes ver dsc cd) qs.
Proof.
  intros K CN CL G DR WK LB ZB EC UX NP. pose proof (strict_chain cd _ _ _ CN G DR eq_refl WK) as C.
  pose proof (chain_short _ _ _ _ CN ltac:(constructor)) as S. pose proof (chain_comment _ _ _ _ CN) as CM.
  pose proof (evol_offset _ _ (chain_evol _ _ _ _ CN) eq_refl) as OF.
  destruct (chain_shape cd sched _ _ _ CN CL LB) as (its & ms & SHP).
  pose proof (sh_all _ _ _ _ _ _ _ _ SHP (worked_not_many xs WK)) as ALL.
  pose proof (sh_items _ _ _ _ _ _ _ _ SHP) as SI. pose proof (sh_members _ _ _ _ _ _ _ _ SHP) as SM.
  apply (close_ok _ _ _ S) in CL. cbv zeta in CL. destruct CL as (B & _ & Z).
  assert (LW : len (w_bytes w0) < 0x10000000000000000) by (rewrite B, len_app in LB; lia).
  destruct (C LW) as (qs & EB & ECD & LQ & F & CH). cbn [zw_new w_cds w_force_no] in ECD, LQ, F. cbn [map concat app] in ECD.
  change (w_bytes (zw_new sched)) with (@nil byte) in EB, CH. rewrite app_nil_l in EB. change (len (@nil byte)) with 0 in CH. change (len (@nil cd_entry)) with 0 in LQ.
  rewrite <- Z, OF, ECD, CM in B. rewrite LQ, N.add_0_l in B.
  set (mem := members (map p_member qs)) in *. set (body := w_bytes w0) in *.
  assert (LN : len ms = len qs).
  { apply Forall2_len in F. apply Forall2_len in SI. apply Forall2_len in SM. rewrite (recorded_succeeded xs (worked_not_many xs WK)) in SI. unfold len. lia. }
  change (comment_bytes (fold_left comment_after (map fst xs) (w_comment (zw_new sched)))) with (last_comment (map fst xs)) in B.
  set (tail := mem ++ _) in B.
  pose proof (chained_each qs 0 tail CH) as EACH. rewrite <- EB, <- B in EACH.
  assert (BD : len (w_bytes w) <= 0xFFFFFFFF -> Forall (fun q => i_csize (p_item q) <= 0xFFFFFFFF /\ i_off (p_item q) <= 0xFFFFFFFF) qs).
  { intro L4. eapply Forall_impl; [|exact EACH]. intros q (a & b & E & O). rewrite E, !len_app in L4. pose proof (image_bound q). lia. }
  assert (GP : Forall fair_piece qs).
  { assert (BC : Forall (fun q => i_csize (p_item q) < 0xFFFFFFFFFFFFFFFF /\ (found_at (le 4 0x04034b50) (w_bytes w) (i_off (p_item q))) /\
        (len (w_bytes w) <= 0xFFFFFFFF -> i_off (p_item q) < 0xFFFFFFFF)) qs).
    { eapply Forall_impl; [|exact EACH]. intros q (a & b & E & O). pose proof (image_bound q) as IB. destruct (p_image_signed q) as (t & PS). split; [|split].
      - rewrite E, !len_app in LB. lia.
      - exists a, (t ++ b). rewrite E, PS, <- !app_assoc. split; [reflexivity|lia].
      - intro L4. rewrite E, !len_app in L4. lia. }
    clear -F UX NP BC BD. assert (BD' : Forall (fun q => len (w_bytes w) <= 0xFFFFFFFF -> i_csize (p_item q) <= 0xFFFFFFFF /\ i_off (p_item q) <= 0xFFFFFFFF) qs).
    { apply Forall_forall. intros q I L. exact (proj1 (Forall_forall _ _) (BD L) q I). }
    clear BD. revert UX NP BC BD'. generalize (succeeded false xs) F. clear F. intros ys F.
    induction F as [|x q ys qs (LV & IF & LO & MO) F IH]; intros UX NP BC BD; constructor.
    - inversion UX as [|? ? U1 _]; subst. inversion BC as [|? ? (B1 & B2 & B3) _]; subst. inversion BD as [|? ? B4 _]; subst.
      split; [exact LO|]. split; [exact IF|]. split.
      { apply MO. intros I6 O6. destruct NP as [L4|[NP NF]].
        - exfalso. destruct (B4 L4) as [_ B5]. unfold in64 in I6. unfold off64, is_over in O6. destruct (i_stream (p_item q)); [congruence|]. lia.
        - inversion NP as [|? ? N1 _]; subst. apply (N1 _ LV). unfold in64 in I6. unfold off64 in O6. destruct (i_stream (p_item q)); [congruence|reflexivity]. }
      split; [now apply U1|]. split; [exact B1|]. intros _ _. destruct NP as [L4|[_ NF]]; [specialize (B3 L4); lia|].
      intro E. apply NF. now rewrite <- E.
    - inversion UX; subst. inversion BC; subst. inversion BD; subst. apply IH; [assumption| |assumption|assumption].
      destruct NP as [L4|[NP NF]]; [now left|right]. inversion NP; subst. now split. }
  assert (DA : directory_at (w_bytes w) = Some (body ++ mem, (len qs, len mem, len body))).
  { unfold tail in B. rewrite B in EC, LB, ZB |- *. apply directory_seen; [exact LB| |exact EC|].
    - assert (X : len qs <= len body).
      { rewrite EB. clear. induction qs as [|q qs IH]; [reflexivity|]. cbn [map concat]. rewrite len_app, len_cons. pose proof (image_bound q). lia. }
      rewrite !len_app in LB. lia.
    - intro Z0. rewrite Z0 in ALL, ZB. destruct ZB as [ZB|ZB]; [discriminate|]. split; [|rewrite !len_app in ZB; split; lia].
      destruct (N.leb_spec (len ms) 0xFFFF) as [Q|Q]; [lia|]. discriminate (ALL Q). }
  exists qs. split; [exact F|]. split; [exact BD|].
  unfold lax. rewrite DA, text_app. replace (_ + _ =? _) with true by (rewrite len_app; lia). cbn [andb].
  unfold mem. rewrite listings_wide; [|apply Forall_map; eapply Forall_impl; [|exact GP]; exact fair_wide|lia].
  replace (len (map listing64 (map p_member qs)) =? len qs) with true by (unfold len; rewrite !map_length; lia). cbn [andb].
  rewrite EB. now apply lax_entries_ok.
Qed.

(** ** From entries to calls *)
Lemma least_wide c d z : least_version (compression_to c) d z = N.max (if z then 45 else 10) (least_version (compression_to c) d false).
Proof. unfold least_version. destruct c, d, z; reflexivity. Qed.
Lemma enough_iff ver it v : needs (i_entry it) v ->
  enough_for ver it v = true <-> tidy_name (i_entry it) /\ (ver = false -> is_wide it = true -> 45 <= method_version (en_compression (i_entry it))).
Proof.
  intros N. unfold enough_for. rewrite least_wide, N.leb_le. rewrite <- (version_enough _ _ N), N.leb_le.
  set (lv := least_version (compression_to (en_compression (i_entry it))) (dir_name (i_name it)) false).
  change (least_version _ (dir_name (stored_bytes _)) false) with lv.
  assert (L : 10 <= lv) by (unfold lv; rewrite least_of; destruct (en_compression (i_entry it)); cbn [method_version]; lia).
  assert (V : 45 <= v <-> 45 <= method_version (en_compression (i_entry it))) by (destruct N as [[_ ->]|[_ ->]]; lia).
  rewrite <- V. destruct ver, (is_wide it); cbn [negb andb]; split; intros H.
  - split; [lia|discriminate].
  - destruct H. lia.
  - split; [lia|discriminate].
  - destruct H. lia.
  - split; [lia|]. intros _ _. lia.
  - destruct H as [H H']. specialize (H' eq_refl eq_refl). lia.
  - split; [lia|discriminate].
  - destruct H. lia.
Qed.
Lemma sound_told cd e z u c : (match unpack cd (en_compression e) z with Some x => (len x =? u) && (crc32_spec x =? c) | None => false end) = true <->
  exists x, unpack cd (en_compression e) z = Some x /\ len x = u /\ crc32_spec x = c.
Proof.
  destruct (unpack cd (en_compression e) z) as [x|].
  - rewrite andb_true_iff, !N.eqb_eq. split; [intros []; now exists x|]. intros (y & E & H). now injection E as <-.
  - split; [discriminate|]. intros (x & E & _). discriminate.
Qed.
Lemma bond_passes ver dsc cd x q : codec_ok cd -> bond cd x q -> (ver = true \/ i_csize (p_item q) <= 0xFFFFFFFF /\ i_off (p_item q) <= 0xFFFFFFFF) ->
  p_passes ver dsc cd q = true <-> passes ver dsc cd x.
Proof.
  intros K (LV & IF & LO & _) SZ. unfold p_passes, item_passes, passes. rewrite !andb_true_iff, (enough_iff _ _ _ (lo_version _ _ _ _ _ LO)).
  set (it := p_item q) in *.
  assert (W : ver = false -> (is_wide it = true <-> wide x)).
  { intros ->. destruct SZ as [SZ|[S1 S2]]; [discriminate|]. assert (S1' : is_over (i_csize it) = false) by (unfold is_over; lia).
    assert (S2' : is_over (i_off it) = false) by (unfold is_over; lia). unfold is_wide, in64, off64, wide. clear - LV S1' S2'. clearbody it. destruct x as [no64 o]. cbn [fst snd] in *.
    unfold i_big. rewrite S1', S2', orb_false_r.
    destruct LV; cbn [i_stream i_usize i_no64]; rewrite ?orb_false_r; unfold is_over; try (split; lia); destruct no64; cbn; split; congruence. }
  assert (T : tidy_name (i_entry it) <-> tidy x).
  { unfold tidy. clear -LV. clearbody it. destruct x as [no64 o]. cbn [fst snd] in *. now destruct LV. }
  assert (N5 : 45 <= method_version (en_compression (i_entry it)) <-> needs45 x).
  { unfold needs45. clear -LV. clearbody it. destruct x as [no64 o]. cbn [fst snd] in *. now destruct LV. }
  assert (SD : sound_item cd it = true <-> told_right cd x).
  { unfold sound_item, told_right, told_truly. rewrite (sound_told cd (i_entry it)). clear -LV K. clearbody it. destruct x as [no64 o]. cbn [fst snd] in *.
    destruct LV as [e data z off C|e z off|e body z off C|e body off]; cbn [i_entry i_data i_usize i_crc]; try reflexivity.
    - split; [easy|]. intros _. exists data. split; [now apply compressed_unpacks|auto].
    - split; [easy|]. intros _. exists (fed_bytes body). split; [now apply compressed_unpacks|auto]. }
  assert (D : dsc || negb (i_stream it && in64 it) = true <-> (dsc = false -> ~ wide_stream x)).
  { unfold wide_stream, in64. clear -LV. clearbody it. destruct x as [no64 o]. cbn [fst snd] in *.
    destruct dsc; cbn [orb]; [split; [discriminate|reflexivity]|].
    destruct LV; cbn [i_stream i_no64 andb]; try (split; [intros _ _ []|reflexivity]); destruct no64; cbn; (split; [try discriminate|intro NW; try reflexivity]);
      exfalso; now apply NW. }
  rewrite T, N5, SD, D. split.
  - intros [[[H1 H2] H3] H4]. split; [exact H1|]. split; [exact H3|]. split; [|exact H4]. intros V WX. apply H2; [exact V|]. now apply W.
  - intros (H1 & H2 & H3 & H4). split; [split; [split; [exact H1|]|exact H2]|exact H4]. intros V WI. apply H3; [exact V|]. now apply W.
Qed.
Lemma bonds_pass ver dsc cd xs qs : codec_ok cd -> Forall2 (bond cd) xs qs ->
  (ver = true \/ Forall (fun q => i_csize (p_item q) <= 0xFFFFFFFF /\ i_off (p_item q) <= 0xFFFFFFFF) qs) ->
  forallb (p_passes ver dsc cd) qs = true <-> Forall (passes ver dsc cd) xs.
Proof.
  intros K. induction 1 as [|x q xs qs B _ IH]; intros SZ; [now split|]. cbn [forallb]. rewrite andb_true_iff, Forall_cons_iff, IH, (bond_passes ver dsc cd x q K B).
  - reflexivity.
  - destruct SZ as [SZ|SZ]; [now left|]. inversion SZ; subst. now right.
  - destruct SZ as [SZ|SZ]; [now left|]. inversion SZ; subst. now right.
Qed.

Lemma chain_lax_any dsc cd sched xs w0 w : codec_ok cd -> ChainFacts.chain cd (zw_new sched) xs w0 -> zw_close w0 = (Ok tt, w) ->
  Forall (fun x => op_good (fst x)) xs -> Forall (fun x => dropped (fst x) = false) xs ->
  Forall (fun x => worked (snd x) = true) xs -> len (w_bytes w) < 0x10000000000000000 -> (w_zip64 w = true \/ len (w_bytes w) <= 0xFFFFFFFF) ->
  others_clear (w_zip64 w) (last_comment (map fst xs)) (w_bytes w) -> Forall (unexchanged cd) (succeeded false xs) ->
  (len (w_bytes w) <= 0xFFFFFFFF \/ Forall (no_placeholder cd) (succeeded false xs) /\ ~ found_at (le 4 0x04034b50) (w_bytes w) 0xFFFFFFFF) ->
  (lax true dsc cd (w_bytes w) = true <-> Forall (passes true dsc cd) (succeeded false xs)).
Proof.
  intros K CN CL G DR WK LB ZB EC UX NP. destruct (lax_pieces true dsc cd sched xs w0 w K CN CL G DR WK LB ZB EC UX NP) as (qs & F & _ & ->). apply bonds_pass; auto.
Qed.
Lemma chain_lax_small ver dsc cd sched xs w0 w : codec_ok cd -> ChainFacts.chain cd (zw_new sched) xs w0 -> zw_close w0 = (Ok tt, w) ->
  Forall (fun x => op_good (fst x)) xs -> Forall (fun x => dropped (fst x) = false) xs ->
  Forall (fun x => worked (snd x) = true) xs -> len (w_bytes w) <= 0xFFFFFFFF ->
  others_clear (w_zip64 w) (last_comment (map fst xs)) (w_bytes w) -> Forall (unexchanged cd) (succeeded false xs) ->
  (lax ver dsc cd (w_bytes w) = true <-> Forall (passes ver dsc cd) (succeeded false xs)).
Proof.
  intros K CN CL G DR WK LB EC UX.
  destruct (lax_pieces ver dsc cd sched xs w0 w K CN CL G DR WK ltac:(lia) (or_intror LB) EC UX (or_introl LB)) as (qs & F & BD & ->). apply bonds_pass; auto.
Qed.
Lemma lax_any dsc cd sched l : codec_ok cd -> Forall op_good l -> Forall (fun o => dropped o = false) l ->
  let '(xs, r, w) := run_archive cd sched l in
  r = Ok tt -> Forall (fun x => worked (snd x) = true) xs -> len (w_bytes w) < 0x10000000000000000 -> (w_zip64 w = true \/ len (w_bytes w) <= 0xFFFFFFFF) ->
  others_clear (w_zip64 w) (last_comment l) (w_bytes w) -> Forall (unexchanged cd) (succeeded false xs) ->
  (len (w_bytes w) <= 0xFFFFFFFF \/ Forall (no_placeholder cd) (succeeded false xs) /\ ~ found_at (le 4 0x04034b50) (w_bytes w) 0xFFFFFFFF) ->
  (lax true dsc cd (w_bytes w) = true <-> Forall (passes true dsc cd) (succeeded false xs)).
Proof.
  intros K G DR. pose proof (calls_chain cd l (proj1 K) G (zw_new sched)) as H. unfold run_archive. destruct (run_ops cd l (zw_new sched)) as [xs w0].
  destruct H as [CN M]. destruct (zw_close w0) as [r w] eqn:CL. intros -> WK LB ZB EC UX NP.
  refine (chain_lax_any dsc cd sched xs w0 w K CN CL _ _ WK LB ZB _ UX NP); [now rewrite <- Forall_map, M|now rewrite <- (Forall_map fst (fun o => dropped o = false)), M|now rewrite M].
Qed.
Lemma lax_small ver dsc cd sched l : codec_ok cd -> Forall op_good l -> Forall (fun o => dropped o = false) l ->
  let '(xs, r, w) := run_archive cd sched l in
  r = Ok tt -> Forall (fun x => worked (snd x) = true) xs -> len (w_bytes w) <= 0xFFFFFFFF ->
  others_clear (w_zip64 w) (last_comment l) (w_bytes w) -> Forall (unexchanged cd) (succeeded false xs) ->
  (lax ver dsc cd (w_bytes w) = true <-> Forall (passes ver dsc cd) (succeeded false xs)).
Proof.
  intros K G DR. pose proof (calls_chain cd l (proj1 K) G (zw_new sched)) as H. unfold run_archive. destruct (run_ops cd l (zw_new sched)) as [xs w0].
  destruct H as [CN M]. destruct (zw_close w0) as [r w] eqn:CL. intros -> WK LB EC UX.
  refine (chain_lax_small ver dsc cd sched xs w0 w K CN CL _ _ WK LB  _ UX); [now rewrite <- Forall_map, M|now rewrite <- (Forall_map fst (fun o => dropped o = false)), M|now rewrite M].
Qed.
Lemma strict_small cd sched l : codec_ok cd -> Forall op_good l -> Forall (fun o => dropped o = false) l ->
  let '(xs, r, w) := run_archive cd sched l in
  r = Ok tt -> Forall (fun x => worked (snd x) = true) xs -> len (w_bytes w) <= 0xFFFFFFFF ->
  others_clear (w_zip64 w) (last_comment l) (w_bytes w) -> Forall (unexchanged cd) (succeeded false xs) ->
  (strict cd (w_bytes w) = true <-> Forall (passes false false cd) (succeeded false xs)).
Proof.
  intros K G DR. pose proof (lax_small false false cd sched l K G DR) as LP. destruct (run_archive cd sched l) as [[xs r] w]. now rewrite <- lax_strict.
Qed.
