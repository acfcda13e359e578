(** Proofs about the strict check. *)
From Verif Require Import Base BaseFacts SpecFormat SpecCrc SpecArchive SpecRead SpecWrite SpecStrict ZString ZDate Headers HeadersFacts ExtraField Entry
  IO Reader EntryReader Writer WriterFacts WholeFacts OpenFacts RecordFacts HistFacts CloseFacts RoundTrip StreamFacts WriteProofs StreamWalk Crc32 CrcFacts TextFacts ChainFacts.
Arguments N.mul : simpl never.
Arguments N.add : simpl never.
Arguments N.sub : simpl never.

(** ** Reading off the front *)
Lemma value_from l : value l = from_le l.
Proof. induction l as [|b l IH]; [reflexivity|]. change (value (b :: l)) with (b2n b + 256 * value l). now rewrite IH. Qed.
Lemma text_app a b : text (len a) (a ++ b) = Some (a, b).
Proof.
  unfold text. rewrite len_app. replace (len a <=? len a + len b) with true by lia. unfold len. rewrite Nat2N.id.
  rewrite firstn_app, skipn_app, Nat.sub_diag, firstn_all, skipn_all. cbn [firstn skipn app]. now rewrite app_nil_r.
Qed.
Lemma len_le k v : len (le k v) = N.of_nat k.
Proof. rewrite le_to_le. apply len_to_le. Qed.
Definition in_width (f : nat * N) : Prop := snd f < 256 ^ N.of_nat (fst f).
Lemma nums_record fs : Forall in_width fs -> forall r, nums (map fst fs) (record fs ++ r) = Some (map snd fs, r).
Proof.
  induction 1 as [|[k v] fs W _ IH]; intro r; [reflexivity|]. unfold record in *. cbn [map concat nums fst snd]. rewrite <- app_assoc.
  rewrite <- (len_le k v) at 1. rewrite text_app, IH, value_from, le_to_le, from_to_le, N.mod_small by exact W. reflexivity.
Qed.
Lemma nums_at ks vs fs l r : l = record fs ++ r -> Forall in_width fs -> map fst fs = ks -> map snd fs = vs -> nums ks l = Some (vs, r).
Proof. intros -> W <- <-. now apply nums_record. Qed.
Ltac widths := repeat (constructor; [unfold in_width; cbn [fst snd N.of_nat Pos.of_succ_nat Pos.succ]; try (change (256 ^ 2) with 0x10000); try (change (256 ^ 4) with 0x100000000); try (change (256 ^ 8) with 0x10000000000000000); try assumption; try reflexivity; try lia|]); try constructor.

Lemma fields_go xs : Forall plain_field xs -> len (spec_extras xs) < 0x10000 -> forall n, (length (spec_extras xs) <= n)%nat ->
  fields n (spec_extras xs) = Some (map (fun x => (spec_id x, spec_payload x)) xs).
Proof.
  induction 1 as [|x xs P _ IH]; intros L n F; [now destruct n|].
  unfold spec_extras in *. cbn [map concat] in *. set (rest := concat (map (fun x => extra (spec_id x) (spec_payload x)) xs)) in *.
  unfold extra in *. rewrite <- app_assoc in *. rewrite !len_app in L.
  assert (E : nums [2; 2]%nat (record [(2%nat, spec_id x); (2%nat, len (spec_payload x))] ++ spec_payload x ++ rest) = Some ([spec_id x; len (spec_payload x)], spec_payload x ++ rest)).
  { apply nums_at with (fs := [(2%nat, spec_id x); (2%nat, len (spec_payload x))]); try reflexivity. widths.
    destruct x as [z|u|u|id sz c]; cbn; try reflexivity. now destruct P. }
  destruct n as [|n].
  { rewrite app_length in F. cbn in F. lia. }
  cbn [fields].
  remember (record [(2%nat, spec_id x); (2%nat, len (spec_payload x))] ++ spec_payload x ++ rest) as l eqn:EL.
  destruct l as [|b l]; [discriminate|]. rewrite E, text_app. rewrite IH; [reflexivity|lia|].
  rewrite EL, !app_length in F. cbn [length record map concat fst snd] in F. unfold record in F. cbn in F. lia.
Qed.
Lemma all_fields_ok xs : Forall plain_field xs -> len (spec_extras xs) < 0x10000 ->
  all_fields (spec_extras xs) = Some (map (fun x => (spec_id x, spec_payload x)) xs).
Proof. intros P L. unfold all_fields. now apply fields_go. Qed.
Lemma no_zip64 xs : Forall plain_field xs -> zip64_of (map (fun x => (spec_id x, spec_payload x)) xs) = None.
Proof.
  induction 1 as [|x xs P _ IH]; [reflexivity|]. cbn [map zip64_of]. replace (spec_id x =? 1) with false; [exact IH|].
  symmetry. apply N.eqb_neq. destruct x as [z|u|u|id sz c]; cbn; try discriminate; [easy|]. now destruct P as (_ & ? & _).
Qed.
Lemma same_bytes_refl l : same_bytes l l = true.
Proof. induction l as [|b l IH]; [reflexivity|]. cbn. now rewrite N.eqb_refl. Qed.

(** ** Records of the directory *)
Definition listing_of (a : member) : listing :=
  {| r_needed := a_needed a; r_flags := a_flags a; r_method := compression_to (a_method a); r_time := a_time a; r_date := a_date a;
     r_crc := a_crc a; r_csize := a_csize a; r_usize := a_usize a; r_disk := a_disk a; r_offset := a_offset a; r_name := a_name a;
     r_extra := map (fun x => (spec_id x, spec_payload x)) (a_extras a); r_comment := a_comment a; r_iattr := a_iattr a; r_eattr := a_eattr a |}.
Definition classic_member (a : member) : Prop := member_ok a /\ a_zip64 a = [].
Lemma classic_flags a : a_zip64 a = [] -> a_u64 a = false /\ a_c64 a = false /\ a_o64 a = false /\ a_d64 a = false.
Proof. unfold a_zip64. destruct (a_u64 a), (a_c64 a), (a_o64 a), (a_d64 a); cbn; try discriminate. auto. Qed.
Lemma method_bound c : compression_to c < 0x10000.
Proof. destruct c; reflexivity. Qed.
Lemma classic_extras a : classic_member a -> Forall plain_field (a_extras a).
Proof.
  intros ((_&_&_&_&_&_&_&_&_&_&_&_&_&_&_&_&_&B&A) & Z). unfold a_extras. rewrite Z. cbn [app]. apply Forall_app. now split.
Qed.
Lemma read_listing_ok a r : classic_member a -> read_listing (member_record a ++ r) = Some (listing_of a, r).
Proof.
  intros C. pose proof (classic_extras a C) as PX. pose proof (classic_flags a (proj2 C)) as (F1 & F2 & F3 & F4).
  destruct C as ((W1&W2&W3&W4&W5&W6&W7&W8&W9&W10&W11&W12&_&_&L1&L2&L3&_) & _). unfold fits in *. rewrite F1 in W9. rewrite F2 in W10. rewrite F3 in W11. rewrite F4 in W12.
  unfold read_listing, member_record, central_header. rewrite F1, F2, F3, F4. unfold kept. rewrite <- !app_assoc.
  pose proof (method_bound (a_method a)) as MB.
  erewrite nums_at; [|reflexivity| |reflexivity|reflexivity]; [|widths].
  cbn [map snd]. rewrite N.eqb_refl. cbn [negb]. rewrite text_app, text_app, text_app, all_fields_ok by assumption. reflexivity.
Qed.
Lemma member_record_pos a : (length (member_record a) > 0)%nat.
Proof. unfold member_record, central_header, record. cbn [map concat fst snd]. rewrite app_length. cbn. lia. Qed.
Lemma listings_ok ms : Forall classic_member ms -> forall n, (length (members ms) <= n)%nat -> listings n (members ms) = Some (map listing_of ms).
Proof.
  induction 1 as [|a ms C _ IH]; intros n L; [now destruct n|]. unfold members in *. cbn [map concat] in *. rewrite app_length in L.
  pose proof (member_record_pos a) as P. destruct n as [|n]; [lia|]. cbn [listings].
  pose proof (read_listing_ok a (concat (map member_record ms)) C) as E.
  remember (member_record a ++ concat (map member_record ms)) as l eqn:EL. destruct l as [|b l].
  { apply (f_equal (@length byte)) in EL. rewrite app_length in EL. cbn in EL. lia. }
  rewrite E, IH by lia. reflexivity.
Qed.

(** ** One entry *)
Lemma method_of_ok c : method_of (compression_to c) = Some c.
Proof. now destruct c. Qed.
Lemma least_of c d : least_version (compression_to c) d false = N.max (if d then 20 else 10) (method_version c).
Proof. unfold least_version. destruct c, d; reflexivity. Qed.
Lemma version_enough e v : needs e v ->
  (least_version (compression_to (en_compression e)) (dir_name (stored_bytes (en_filename e))) false <=? v) = true <-> tidy_name e.
Proof.
  intros N. rewrite least_of, N.leb_le. unfold tidy_name.
  assert (M : 10 <= method_version (en_compression e)) by (destruct (en_compression e); cbn; lia).
  destruct N as [[ND ->]|[ND ->]].
  - split; [now left|]. intros _. destruct (dir_name _); lia.
  - destruct (dir_name _); split.
    + intros L _. right. lia.
    + intros T. destruct (T eq_refl) as [T'|T']; [contradiction|lia].
    + discriminate.
    + lia.
Qed.
Definition enough (it : item) (v : N) : bool :=
  least_version (compression_to (en_compression (i_entry it))) (dir_name (i_name it)) false <=? v.
Lemma flag_bit3 s f : N.testbit (flag_word false s f) 3 = s.
Proof. now destruct s, f. Qed.
Lemma no_local_zip64 it : local_zip64 it = [] -> if i_stream it then i_no64 it = true else i_big it = false.
Proof. unfold local_zip64. destruct (i_stream it); [destruct (i_no64 it)|destruct (i_big it)]; try discriminate; auto. Qed.

Lemma check_entry_ok cd it a v f lx content rest : laid_out it a v f lx -> item_fine it -> classic_member a -> local_zip64 it = [] ->
  unpack cd (en_compression (i_entry it)) (i_data it) = Some content -> len content = a_usize a ->
  crc32_spec content = i_crc it -> a_csize a = len (i_data it) ->
  check_entry cd (listing_of a) (a_usize a) (a_csize a) (item_image it v f lx ++ rest) = if enough it v then Some rest else None.
Proof.
  intros LO IF CM LZ UN LU CR CS. pose proof (classic_extras a CM) as PX.
  pose proof IF as ((WT & Pl) & Hcrc & _). destruct WT as (Wd & Wt & Wc & _).
  destruct (texts_split _ _ _ _ _ _ (in_local it) Pl (lo_local _ _ _ _ _ LO)) as (b & t & E & Pb & Pt).
  assert (Plx : Forall plain_field lx) by (rewrite E, LZ; cbn [app]; apply Forall_app; now split).
  destruct (lo_fits _ _ _ _ _ LO) as (L1 & _ & L2 & _). pose proof (needs_bound _ _ (lo_version _ _ _ _ _ LO)) as VB.
  pose proof (no_local_zip64 it LZ) as NZ.
  unfold check_entry, item_image, local_image. cbv zeta. rewrite <- !app_assoc. rewrite local_header_mod.
  erewrite nums_at; [|reflexivity| |reflexivity|reflexivity].
  2:{ pose proof (method_bound (en_compression (i_entry it))). widths; try (apply N.mod_lt; discriminate);
      try (destruct (i_stream it), f; reflexivity); destruct (i_stream it); assumption. }
  cbn [map snd]. rewrite text_app, text_app, all_fields_ok by assumption. rewrite CS, text_app, method_of_ok by assumption. unfold local_sizes. rewrite no_zip64 by assumption.
  unfold listing_of. cbn [r_needed r_flags r_method r_time r_date r_crc r_csize r_usize r_name r_extra].
  rewrite (no_zip64 (a_extras a)) by assumption. rewrite UN, LU, CR.
  rewrite (lo_needed _ _ _ _ _ LO), (lo_flags _ _ _ _ _ LO), (lo_method _ _ _ _ _ LO), (lo_time _ _ _ _ _ LO), (lo_date _ _ _ _ _ LO), (lo_crc _ _ _ _ _ LO), (lo_name _ _ _ _ _ LO).
  rewrite flag_bit3, !N.eqb_refl, same_bytes_refl. cbn [andb orb].
  fold (enough it v). destruct (enough it v); [|now rewrite andb_false_r]. cbn [andb].
  pose proof (classic_flags a (proj2 CM)) as (F1 & F2 & _). destruct CM as ((_&_&_&_&_&_&_&_&W9&W10&_) & _). unfold fits in W9, W10. rewrite F1 in W9. rewrite F2 in W10.
  pose proof (lo_csize _ _ _ _ _ LO) as PC. pose proof (lo_usize _ _ _ _ _ LO) as PU. unfold descriptor_image.
  destruct (i_stream it) eqn:S; cbn [andb orb].
  - rewrite NZ, <- PC, <- PU. unfold data_descriptor32. erewrite nums_at; [|reflexivity| |reflexivity|reflexivity].
    + cbn [map snd]. rewrite CS, !N.eqb_refl. reflexivity.
    + widths.
  - unfold put_csize, put_usize, i_swapped in PC, PU. rewrite S in PC, PU. cbn [andb] in PC, PU. rewrite NZ, <- PC, <- PU, !N.mod_small, !N.eqb_refl, <- CS, N.eqb_refl by assumption. reflexivity.
Qed.

(** ** The whole archive *)
Record piece := { p_item : item; p_member : member; p_version : N; p_flag : bool; p_local : list extra_field }.
Definition p_image (q : piece) : bytes := item_image (p_item q) (p_version q) (p_flag q) (p_local q).
Definition bond (cd : codec) (x : bool * wop) (q : piece) : Prop :=
  leaves cd (fst x) (snd x) (p_item q) /\ item_fine (p_item q) /\
  laid_out (p_item q) (p_member q) (p_version q) (p_flag q) (p_local q) /\ (sizes_clear (p_item q) -> member_ok (p_member q)).
Fixpoint chained (pos : N) (l : list piece) : Prop :=
  match l with [] => True | q :: l => i_off (p_item q) = pos /\ chained (pos + len (p_image q)) l end.

Lemma strict_chain cd w xs w' : chain cd w xs w' -> Forall (fun x => op_good (fst x)) xs -> Forall (fun x => dropped (fst x) = false) xs ->
  w_offset w = len (w_bytes w) ->
  Forall (fun x => worked (snd x) = true) xs -> len (w_bytes w') < 0x10000000000000000 ->
  exists qs, w_bytes w' = w_bytes w ++ concat (map p_image qs) /\
    concat (map ce_bytes (w_cds w')) = concat (map ce_bytes (w_cds w)) ++ members (map p_member qs) /\
    len (w_cds w') = len (w_cds w) + len qs /\
    Forall2 (bond cd) (succeeded (w_force_no w) xs) qs /\ chained (len (w_bytes w)) qs.
Proof.
  induction 1 as [w|w o r w1 xs w2 L C0 IH]; intros GS DR OF WK LB.
  { exists []. unfold members. cbn [map concat]. rewrite !app_nil_r. repeat split; [change (len (@nil piece)) with 0; lia|constructor]. }
  apply Forall_cons_iff in GS, DR, WK. destruct GS as [G G2], DR as [D1 D2], WK as [W1 W2]. cbn [fst snd] in *.
  destruct L as [S EV KF _ KZ _ SAME]. pose proof (evol_offset _ _ EV OF) as OF1. pose proof (chain_evol _ _ _ _ C0) as EV2.
  destruct (IH G2 D2 OF1 W2 LB) as (qs & E & EC & EL0 & F & CH).
  destruct EV2 as ((b & EB & _) & _). rewrite EB, len_app in LB. specialize (S OF ltac:(lia)).
  rewrite KF in F. destruct S as [C NW TM|c it img WE C B OFF LV EL FN I64 CNT].
  - exists qs. assert (W : writes_entry o = false) by (destruct (writes_entry o); [rewrite NW in W1 by easy; discriminate|reflexivity]).
    rewrite succeeded_cons, W. cbn [andb app]. rewrite <- (proj1 (SAME W D1)), <- C. auto.
  - destruct EL as (a & v & f & lx & LO & IM & CB & MO).
    exists ({| p_item := it; p_member := a; p_version := v; p_flag := f; p_local := lx |} :: qs).
    rewrite succeeded_cons, WE, W1. cbn [andb app map concat p_member]. unfold p_image at 1. cbn [p_item p_version p_flag p_local]. rewrite <- IM.
    split; [|split; [|split; [|split]]].
    + rewrite E, B, <- app_assoc. reflexivity.
    + rewrite EC, C, map_app, concat_app. unfold members. cbn [map concat]. rewrite CB, app_nil_r, <- app_assoc. reflexivity.
    + rewrite EL0, C, len_app. change (len [c]) with 1. unfold len. cbn [length]. lia.
    + constructor; [|exact F]. unfold bond. cbn [p_item p_member p_version p_flag p_local]. split; [exact LV|]. split; [|now split].
      rewrite B, len_app, IM in LB. unfold item_image in LB. rewrite !len_app in LB.
      apply (leaves_fine _ _ _ _ LV G); [unfold i_csize; lia|rewrite OFF, OF; lia].
    + cbn [chained p_item]. split; [now rewrite OFF|]. unfold p_image at 1. cbn [p_item p_version p_flag p_local]. rewrite <- IM, <- len_app, <- B. exact CH.
Qed.

Definition good_piece (cd : codec) (q : piece) : Prop :=
  let it := p_item q in let a := p_member q in
  laid_out it a (p_version q) (p_flag q) (p_local q) /\ item_fine it /\ classic_member a /\ local_zip64 it = [] /\
  exists content, unpack cd (en_compression (i_entry it)) (i_data it) = Some content /\ len content = a_usize a /\
    crc32_spec content = i_crc it /\ a_csize a = len (i_data it).
Definition p_enough (q : piece) : bool := enough (p_item q) (p_version q).
Lemma check_entries_ok cd qs : Forall (good_piece cd) qs -> forall pos, chained pos qs ->
  check_entries cd (map listing_of (map p_member qs)) pos (concat (map p_image qs)) = forallb p_enough qs.
Proof.
  induction 1 as [|q qs (LO & IF & CM & LZ & content & UN & LU & CR & CS) _ IH]; intros pos CH; [reflexivity|].
  destruct CH as [C1 C2]. cbn [map concat check_entries].
  assert (M : measures (listing_of (p_member q)) = Some (a_usize (p_member q), a_csize (p_member q), a_offset (p_member q))).
  { unfold measures, listing_of. cbn [r_extra r_usize r_csize r_offset]. now rewrite no_zip64 by (now apply classic_extras). }
  pose proof (check_entry_ok cd _ _ _ _ _ content (concat (map p_image qs)) LO IF CM LZ UN LU CR CS) as E. fold (p_image q) in E.
  rewrite M, E. fold (p_enough q).
  cbn [listing_of r_disk]. rewrite (lo_offset _ _ _ _ _ LO), (lo_disk _ _ _ _ _ LO), C1, !N.eqb_refl. cbn [andb forallb].
  destruct (p_enough q); [|reflexivity]. cbn [andb].
  rewrite len_app. replace (len (p_image q) + len (concat (map p_image qs)) - len (concat (map p_image qs))) with (len (p_image q)) by lia.
  now apply IH.
Qed.

Lemma compressed_unpacks cd c data z : codec_ok cd -> compressed cd c data z -> unpack cd c z = Some data.
Proof.
  intros (_ & K) [content ->|level content out st N1 N2 R]; [reflexivity|].
  specialize (K c level content out st [] N1 N2 R). rewrite app_nil_r in K. unfold unpack. rewrite K, N.eqb_refl. now destruct c.
Qed.
Lemma bond_good cd x q : codec_ok cd -> soundly cd x -> bond cd x q -> i_csize (p_item q) <= 0xFFFFFFFF -> i_off (p_item q) <= 0xFFFFFFFF -> good_piece cd q.
Proof.
  intros K CK (LV & IF & LO & MO) HC HO. unfold good_piece. cbv zeta. set (it := p_item q) in *. set (a := p_member q) in *.
  assert (NO : is_over (i_off it) = false) by (unfold is_over; lia).
  assert (NC : is_over (i_csize it) = false) by (unfold is_over; lia).
  assert (ST : straight it /\ (if i_stream it then i_no64 it = true else is_over (i_usize it) = false) /\
    exists content, unpack cd (en_compression (i_entry it)) (i_data it) = Some content /\ len content = i_usize it /\ crc32_spec content = i_crc it).
  { clear IF LO MO HC HO NO NC. revert CK. destruct x as [no64 o]. cbn [fst snd] in *. destruct LV as [e data z off C|e z off|e body z off C|e body off];
    unfold soundly; cbn [snd i_stream i_usize i_no64 i_entry i_data i_crc]; intros CK.
    - split; [discriminate|]. split; [unfold is_over; lia|]. exists data. split; [now apply compressed_unpacks|auto].
    - destruct CK as ((content & U & L & R) & B). split; [discriminate|]. split; [unfold is_over; lia|]. exists content. auto.
    - destruct CK as (_ & F & S & _). split; [apply S; now constructor|]. split; [exact F|]. exists (fed_bytes body).
      split; [now apply compressed_unpacks|auto].
    - destruct CK as (_ & F & S & TR). split; [apply S; constructor|]. split; [exact F|].
      destruct (TR eq_refl) as (content & U & L & R). exists content. auto. }
  destruct ST as (ST & W & content & U & L & R).
  assert (I64 : in64 it = false /\ off64 it = false /\ local_zip64 it = []).
  { unfold in64, off64, local_zip64, i_big. destruct (i_stream it); [rewrite W; auto|]. rewrite W, NC, NO. auto. }
  destruct I64 as (I1 & I2 & I3).
  assert (A0 : a_zip64 a = []).
  { unfold a_zip64. rewrite (lo_u64 _ _ _ _ _ LO), (lo_c64 _ _ _ _ _ LO), (lo_o64 _ _ _ _ _ LO), (lo_d64 _ _ _ _ _ LO), I1, I2. reflexivity. }
  assert (P : put_csize it = i_csize it /\ put_usize it = i_usize it).
  { unfold put_csize, put_usize, straight in *. destruct (i_swapped it); [now rewrite ST|auto]. }
  destruct P as [P1 P2].
  split; [exact LO|]. split; [exact IF|]. split.
  { split; [|exact A0]. apply MO. unfold sizes_clear. rewrite I2. discriminate. }
  split; [exact I3|]. exists content. split; [exact U|]. rewrite (lo_usize _ _ _ _ _ LO), (lo_csize _ _ _ _ _ LO), P1, P2. auto.
Qed.

(** ** The end *)
Lemma text_inv n l a b : text n l = Some (a, b) -> l = a ++ b /\ len a = n.
Proof.
  unfold text. destruct (N.leb_spec n (len l)) as [L|L]; [|discriminate]. intro E. injection E as <- <-. split; [now rewrite firstn_skipn|].
  unfold len in *. rewrite firstn_length. lia.
Qed.
Lemma nums_inv ks : forall l vs r, nums ks l = Some (vs, r) ->
  exists bs, l = concat bs ++ r /\ map value bs = vs /\ map (@length byte) bs = ks.
Proof.
  induction ks as [|k ks IH]; intros l vs r E; cbn [nums] in E.
  - injection E as <- <-. now exists [].
  - destruct (text (N.of_nat k) l) as [[b l']|] eqn:T; [|discriminate]. destruct (nums ks l') as [[vs' r']|] eqn:N; [|discriminate].
    injection E as <- <-. apply text_inv in T as [-> T]. apply IH in N as (bs & -> & <- & <-). exists (b :: bs). cbn [map concat].
    rewrite <- app_assoc. split; [reflexivity|]. split; [reflexivity|]. f_equal. unfold len in T. lia.
Qed.
Lemma value_le k v b : value b = v -> length b = k -> b = le k v.
Proof. intros <- <-. now rewrite le_to_le, value_from, to_from_le. Qed.

Lemma read_end_signed l vs : read_end l = Some vs -> exists r, l = le 4 0x06054b50 ++ r.
Proof.
  unfold read_end. destruct (nums _ l) as [[ws r]|] eqn:N; [|discriminate]. apply nums_inv in N as (bs & -> & <- & LB).
  destruct bs as [|b bs]; [discriminate|]. cbn [map] in *. destruct (rev (map value bs)); [discriminate|].
  destruct (N.eqb_spec (value b) 0x06054b50) as [V|V]; [|discriminate]. intros _. exists (concat bs ++ r). cbn [concat]. rewrite <- app_assoc.
  f_equal. apply value_le; [exact V|]. now injection LB.
Qed.
Lemma last_end_none l : (forall a b, l = a ++ b -> b <> [] -> read_end b = None) -> last_end l = None.
Proof.
  induction l as [|x l IH]; intro H; [reflexivity|]. cbn [last_end]. rewrite IH.
  - now rewrite (H [] (x :: l)).
  - intros a b -> NE. now apply (H (x :: a) b).
Qed.
Lemma last_end_at front e vs : e <> [] -> read_end e = Some vs -> (forall a b, e = a ++ b -> a <> [] -> b <> [] -> read_end b = None) ->
  last_end (front ++ e) = Some (front, vs).
Proof.
  intros NE R H. induction front as [|x front IH].
  - destruct e as [|x e]; [easy|]. cbn [app last_end]. rewrite last_end_none, R; [reflexivity|]. intros a b -> NB. now apply (H (x :: a) b).
  - cbn [app last_end]. now rewrite IH.
Qed.
Lemma read_end64_signed l x : read_end64 l = Some x -> 76 <= len l /\ found_at (le 4 0x07064b50) l (len l - 20).
Proof.
  unfold read_end64. destruct (text (len l - 76) l) as [[front m]|] eqn:T; [|discriminate]. apply text_inv in T as [-> T].
  destruct (nums _ m) as [[ws r]|] eqn:N; [|discriminate]. apply nums_inv in N as (bs & -> & <- & LB).
  destruct bs as [|c1 bs]; [discriminate|]. destruct bs as [|c2 bs]; [discriminate|]. destruct bs as [|c3 bs]; [discriminate|]. destruct bs as [|c4 bs]; [discriminate|]. destruct bs as [|c5 bs]; [discriminate|]. destruct bs as [|c6 bs]; [discriminate|]. destruct bs as [|c7 bs]; [discriminate|]. destruct bs as [|c8 bs]; [discriminate|]. destruct bs as [|c9 bs]; [discriminate|]. destruct bs as [|c10 bs]; [discriminate|]. destruct bs as [|c11 bs]; [discriminate|]. destruct bs as [|c12 bs]; [discriminate|]. destruct bs as [|c13 bs]; [discriminate|]. destruct bs as [|c14 bs]; [discriminate|]. destruct bs; [|discriminate]. cbn [map] in LB. injection LB as L1 L2 L3 L4 L5 L6 L7 L8 L9 L10 L11 L12 L13 L14.
  cbn [map concat]. rewrite app_nil_r. destruct r; [|discriminate]. rewrite app_nil_r in *.
  match goal with |- (if ?c then _ else _) = _ -> _ => destruct c eqn:C; [|discriminate] end. intros _. repeat (apply andb_true_iff in C as [C ?]).
  assert (LS : c11 = le 4 0x07064b50) by (apply value_le; [now apply N.eqb_eq|assumption]).
  split.
  - rewrite !len_app. unfold len. lia.
  - exists (front ++ c1 ++ c2 ++ c3 ++ c4 ++ c5 ++ c6 ++ c7 ++ c8 ++ c9 ++ c10), (c12 ++ c13 ++ c14). rewrite <- LS. rewrite <- !app_assoc.
    split; [reflexivity|]. rewrite !len_app. unfold len. lia.
Qed.

Lemma end_parses d1 d2 a b c e cm : d1 < 0x10000 -> d2 < 0x10000 -> a < 0x10000 -> b < 0x10000 -> c < 0x100000000 -> e < 0x100000000 -> len cm < 0x10000 ->
  read_end (end_record d1 d2 a b c e (len cm) ++ cm) = Some [d1; d2; a; b; c; e; len cm].
Proof.
  intros. unfold read_end, end_record. erewrite nums_at; [|reflexivity| |reflexivity|reflexivity]; [|widths].
  cbn [map snd rev app]. now rewrite !N.eqb_refl.
Qed.
Lemma end64_parses front n size off : n < 0x10000000000000000 -> size < 0x10000000000000000 -> off < 0x10000000000000000 ->
  len front < 0x10000000000000000 ->
  read_end64 (front ++ zip64_end 44 0x033F 46 0 0 n n size off ++ zip64_end_locator 0 (len front) 1) = Some (front, (n, size, off)).
Proof.
  intros. unfold read_end64.
  assert (L : len (front ++ zip64_end 44 0x033F 46 0 0 n n size off ++ zip64_end_locator 0 (len front) 1) - 76 = len front)
    by (rewrite !len_app, len_end64, len_loc64; lia).
  rewrite L, text_app. unfold zip64_end, zip64_end_locator.
  erewrite nums_at with (fs := [(4%nat, 0x06064b50); (8%nat, 44); (2%nat, 0x033F); (2%nat, 46); (4%nat, 0); (4%nat, 0); (8%nat, n); (8%nat, n); (8%nat, size); (8%nat, off);
    (4%nat, 0x07064b50); (4%nat, 0); (8%nat, len front); (4%nat, 1)]) (r := []); [| |widths|reflexivity|reflexivity].
  2:{ unfold record. cbn [map concat fst snd]. rewrite !app_nil_r, <- !app_assoc. reflexivity. }
  cbn [map snd]. now rewrite !N.eqb_refl.
Qed.
Lemma fits_in_min b v : fits_in b (N.min v b) v = true.
Proof. unfold fits_in. destruct (N.leb_spec v b); [rewrite N.min_l, N.eqb_refl by lia; reflexivity|]. rewrite N.min_r by lia. rewrite N.eqb_refl. replace (b <=? v) with true by lia. now rewrite orb_true_r. Qed.

Lemma directory_found z n body mem cm : let d := body ++ mem ++ archive_end z n (len mem) (len body) cm in
  len d < 0x10000000000000000 -> n < 0x10000000000000000 -> end_clear z cm d -> (z = false -> n <= 0xFFFF /\ len mem <= 0xFFFFFFFF /\ len body <= 0xFFFFFFFF) ->
  directory_at d = Some (body ++ mem, (n, len mem, len body)).
Proof.
  intros d L LN (LC & CL & NL) SM. unfold archive_end in *.
  set (ending := end_record 0 0 (N.min n 0xFFFF) (N.min n 0xFFFF) (N.min (len mem) 0xFFFFFFFF) (N.min (len body) 0xFFFFFFFF) (len cm mod 0x10000) ++ cm) in *.
  set (front := body ++ mem ++ (if z then zip64_end 44 0x033F 46 0 0 n n (len mem) (len body) ++ zip64_end_locator 0 (len body + len mem) 1 else [])).
  assert (ED : d = front ++ ending) by (unfold d, front; now rewrite <- !app_assoc).
  assert (LE : len ending = 22 + len cm) by (unfold ending; rewrite len_app, len_end; reflexivity).
  assert (MD : len cm mod 0x10000 = len cm) by (apply N.mod_small; lia).
  assert (RE : read_end ending = Some [0; 0; N.min n 0xFFFF; N.min n 0xFFFF; N.min (len mem) 0xFFFFFFFF; N.min (len body) 0xFFFFFFFF; len cm]).
  { unfold ending. rewrite MD. apply end_parses; lia. }
  assert (LA : last_end d = Some (front, [0; 0; N.min n 0xFFFF; N.min n 0xFFFF; N.min (len mem) 0xFFFFFFFF; N.min (len body) 0xFFFFFFFF; len cm])).
  { rewrite ED. apply last_end_at; [|exact RE|].
    - intro N. rewrite N in LE. change (len (@nil byte)) with 0 in LE. lia.
    - intros a b EB NA NB. destruct (read_end b) as [vs|] eqn:R; [|reflexivity]. exfalso. apply read_end_signed in R as (r & ->).
      assert (LQ : len (front ++ a) + 22 + len cm <= len d).
      { apply CL. exists (front ++ a), r. split; [|reflexivity]. rewrite ED, EB, <- app_assoc. reflexivity. }
      rewrite ED, !len_app, LE in LQ. destruct a; [easy|]. rewrite len_cons in LQ. lia. }
  unfold directory_at. rewrite LA, !N.eqb_refl. cbn [andb negb].
  assert (LD : len d = len front + 22 + len cm) by (rewrite ED, len_app, LE; lia).
  destruct z.
  - assert (EF : front = (body ++ mem) ++ zip64_end 44 0x033F 46 0 0 n n (len mem) (len body) ++ zip64_end_locator 0 (len (body ++ mem)) 1)
      by (unfold front; rewrite len_app, <- !app_assoc; reflexivity).
    rewrite EF, end64_parses; [|lia| | |]; try (rewrite ED, EF, !len_app in L; rewrite ?len_app; lia).
    now rewrite !fits_in_min.
  - destruct (SM eq_refl) as (S1 & S2 & S3). assert (EF : front = body ++ mem) by (unfold front; now rewrite app_nil_r).
    rewrite EF in *. destruct (read_end64 (body ++ mem)) as [x|] eqn:R.
    + exfalso. apply read_end64_signed in R as (R1 & a & b & R2 & R3). apply (NL eq_refl (len a)).
      * exists a, (b ++ ending). split; [|reflexivity]. rewrite ED, R2, <- !app_assoc. reflexivity.
      * rewrite R3. lia.
    + now rewrite !N.min_l by lia.
Qed.

(** the archive, entry by entry, and how the check takes it apart *)
Lemma chain_pieces cd sched xs w0 w : codec_ok cd -> chain cd (zw_new sched) xs w0 -> zw_close w0 = (Ok tt, w) ->
  Forall (fun x => op_good (fst x)) xs -> Forall (fun x => dropped (fst x) = false) xs ->
  Forall (fun x => worked (snd x) = true) xs -> len (w_bytes w) <= 0xFFFFFFFF -> end_clear (w_zip64 w) (last_comment (map fst xs)) (w_bytes w) ->
  Forall (soundly cd) (succeeded false xs) ->
  exists qs tail, let body := concat (map p_image qs) in let mem := members (map p_member qs) in
    w_bytes w = (body ++ mem) ++ tail /\ Forall2 (bond cd) (succeeded false xs) qs /\ chained 0 qs /\ Forall (good_piece cd) qs /\
    directory_at (w_bytes w) = Some (body ++ mem, (len qs, len mem, len body)).
Proof.
  intros K CN CL G DR WK LB EC CK. pose proof (strict_chain cd _ _ _ CN G DR eq_refl WK) as C.
  pose proof (chain_short _ _ _ _ CN ltac:(constructor)) as S. pose proof (chain_comment _ _ _ _ CN) as CM.
  pose proof (evol_offset _ _ (chain_evol _ _ _ _ CN) eq_refl) as OF.
  destruct (chain_shape cd sched _ _ _ CN CL ltac:(lia)) as (its & ms & SHP).
  pose proof (sh_all _ _ _ _ _ _ _ _ SHP (worked_not_many xs WK)) as ALL.
  pose proof (sh_items _ _ _ _ _ _ _ _ SHP) as SI. pose proof (sh_members _ _ _ _ _ _ _ _ SHP) as SM.
  apply (close_ok _ _ _ S) in CL. cbv zeta in CL. destruct CL as (B & _ & Z).
  assert (LW : len (w_bytes w0) <= 0xFFFFFFFF) by (rewrite B, len_app in LB; lia).
  destruct (C ltac:(lia)) as (qs & EB & ECD & LQ & F & CH). cbn [zw_new w_cds w_force_no] in ECD, LQ, F. cbn [map concat app] in ECD.
  change (w_bytes (zw_new sched)) with (@nil byte) in EB, CH. rewrite app_nil_l in EB. change (len (@nil byte)) with 0 in CH. change (len (@nil cd_entry)) with 0 in LQ.
  rewrite <- Z, OF, ECD, CM in B. rewrite LQ, N.add_0_l in B.
  set (mem := members (map p_member qs)) in *. set (body := w_bytes w0) in *.
  assert (LN : len ms = len qs).
  { apply Forall2_len in F. apply Forall2_len in SI. apply Forall2_len in SM. rewrite (recorded_succeeded xs (worked_not_many xs WK)) in SI. unfold len. lia. }

  change (comment_bytes (fold_left comment_after (map fst xs) (w_comment (zw_new sched)))) with (last_comment (map fst xs)) in B.
  assert (GP : Forall (good_piece cd) qs).
  { assert (BD : Forall (fun q => i_csize (p_item q) <= 0xFFFFFFFF /\ i_off (p_item q) <= 0xFFFFFFFF) qs).
    { assert (X : forall pos, chained pos qs -> pos + len (concat (map p_image qs)) <= 0xFFFFFFFF -> Forall (fun q => i_csize (p_item q) <= 0xFFFFFFFF /\ i_off (p_item q) <= 0xFFFFFFFF) qs).
      { clear. induction qs as [|q qs IH]; intros pos CH L; constructor; destruct CH as [C1 C2]; cbn [map concat] in L; rewrite len_app in L.
        - unfold p_image, item_image in L. rewrite !len_app in L. unfold i_csize. lia.
        - eapply IH; [exact C2|lia]. }
      apply (X 0 CH). rewrite <- EB. lia. }
    clear -F CK BD K. induction F as [|x q l qs B F IH]; constructor.
    - inversion CK; subst. inversion BD as [|? ? [? ?] ?]; subst. now apply (bond_good cd x q).
    - inversion CK; subst. inversion BD; subst. auto. }
  assert (DA : directory_at (w_bytes w) = Some (body ++ mem, (len qs, len mem, len body))).
  { rewrite B in EC, LB |- *. apply directory_found; [lia| |exact EC|].
    - assert (X : len qs <= len body).
      { rewrite EB. clear. induction qs as [|q qs IH]; [reflexivity|]. cbn [map concat]. rewrite len_app, len_cons.
        assert (30 <= len (p_image q)) by (unfold p_image, item_image, local_image; rewrite !len_app; change (len (local_header _ _ _ _ _ _ _ _ _ _)) with 30; lia). lia. }
      lia.
    - intro Z0. rewrite Z0 in ALL. split; [|rewrite !len_app in LB; split; lia].
      destruct (N.leb_spec (len ms) 0xFFFF) as [Q|Q]; [lia|]. discriminate (ALL Q). }
  exists qs. eexists. cbv zeta. fold mem. rewrite <- EB. split; [rewrite B, app_assoc; reflexivity|]. split; [exact F|]. split; [exact CH|]. split; [exact GP|exact DA].
Qed.
Lemma strict_pieces cd sched l : codec_ok cd -> Forall op_good l -> Forall (fun o => dropped o = false) l ->
  let '(xs, r, w) := run_archive cd sched l in
  r = Ok tt -> Forall (fun x => worked (snd x) = true) xs -> len (w_bytes w) <= 0xFFFFFFFF -> end_clear (w_zip64 w) (last_comment l) (w_bytes w) ->
  Forall (soundly cd) (succeeded false xs) ->
  exists qs tail, let body := concat (map p_image qs) in let mem := members (map p_member qs) in
    w_bytes w = (body ++ mem) ++ tail /\ Forall2 (bond cd) (succeeded false xs) qs /\ chained 0 qs /\ Forall (good_piece cd) qs /\
    directory_at (w_bytes w) = Some (body ++ mem, (len qs, len mem, len body)).
Proof.
  intros K G DR. pose proof (calls_chain cd l (proj1 K) G (zw_new sched)) as H. unfold run_archive. destruct (run_ops cd l (zw_new sched)) as [xs w0].
  destruct H as [CN M]. destruct (zw_close w0) as [r w] eqn:CL. intros -> WK LB EC CK.
  refine (chain_pieces cd sched xs w0 w K CN CL _ _ WK LB _ CK); [now rewrite <- Forall_map, M|now rewrite <- (Forall_map fst (fun o => dropped o = false)), M|now rewrite M].
Qed.
Lemma pieces_listed cd qs : Forall (good_piece cd) qs ->
  listings (length (members (map p_member qs))) (members (map p_member qs)) = Some (map listing_of (map p_member qs)).
Proof. intro GP. apply listings_ok; [|lia]. apply Forall_map. eapply Forall_impl; [|exact GP]. intros q (_ & _ & Q & _). exact Q. Qed.
Lemma bonds_tidy cd xs qs : Forall2 (bond cd) xs qs -> forallb p_enough qs = true <-> Forall tidy xs.
Proof.
  induction 1 as [|x q xs qs (LV & _ & LO & _) _ IH]; [now split|]. cbn [forallb]. rewrite andb_true_iff, IH, Forall_cons_iff.
  assert (E : p_enough q = true <-> tidy x); [|now rewrite E].
  unfold p_enough, enough. rewrite (version_enough _ _ (lo_version _ _ _ _ _ LO)). unfold tidy. destruct x as [no64 o]. cbn [fst snd] in *.
  now destruct LV.
Qed.
(** among sound calls the names alone decide *)
Lemma chain_strict cd sched xs w0 w : codec_ok cd -> chain cd (zw_new sched) xs w0 -> zw_close w0 = (Ok tt, w) ->
  Forall (fun x => op_good (fst x)) xs -> Forall (fun x => dropped (fst x) = false) xs ->
  Forall (fun x => worked (snd x) = true) xs -> len (w_bytes w) <= 0xFFFFFFFF -> end_clear (w_zip64 w) (last_comment (map fst xs)) (w_bytes w) ->
  Forall (soundly cd) (succeeded false xs) -> (strict cd (w_bytes w) = true <-> Forall tidy (succeeded false xs)).
Proof.
  intros K CN CL G DR WK LB EC CK. destruct (chain_pieces cd sched xs w0 w K CN CL G DR WK LB EC CK) as (qs & tail & _ & F & CH & GP & DA). cbv zeta in DA.
  unfold strict. rewrite DA, text_app.
  replace (_ + _ =? _) with true by (rewrite len_app; lia). cbn [andb]. rewrite (pieces_listed cd) by exact GP.
  replace (len (map listing_of (map p_member qs)) =? len qs) with true by (unfold len; rewrite !map_length; lia). cbn [andb].
  rewrite (check_entries_ok cd) by assumption. now apply (bonds_tidy cd).
Qed.
Lemma strict_exact cd sched l : codec_ok cd -> Forall op_good l -> Forall (fun o => dropped o = false) l ->
  let '(xs, r, w) := run_archive cd sched l in
  r = Ok tt -> Forall (fun x => worked (snd x) = true) xs -> len (w_bytes w) <= 0xFFFFFFFF -> end_clear (w_zip64 w) (last_comment l) (w_bytes w) ->
  Forall (soundly cd) (succeeded false xs) -> (strict cd (w_bytes w) = true <-> Forall tidy (succeeded false xs)).
Proof.
  intros K G DR. pose proof (calls_chain cd l (proj1 K) G (zw_new sched)) as H. unfold run_archive. destruct (run_ops cd l (zw_new sched)) as [xs w0].
  destruct H as [CN M]. destruct (zw_close w0) as [r w] eqn:CL. intros -> WK LB EC CK.
  refine (chain_strict cd sched xs w0 w K CN CL _ _ WK LB _ CK); [now rewrite <- Forall_map, M|now rewrite <- (Forall_map fst (fun o => dropped o = false)), M|now rewrite M].
Qed.
Lemma strict_ok cd sched l : codec_ok cd -> Forall op_good l -> Forall (fun o => dropped o = false) l ->
  let '(xs, r, w) := run_archive cd sched l in
  r = Ok tt -> Forall (fun x => worked (snd x) = true) xs -> len (w_bytes w) <= 0xFFFFFFFF -> end_clear (w_zip64 w) (last_comment l) (w_bytes w) ->
  Forall (checkable cd) (succeeded false xs) -> strict cd (w_bytes w) = true.
Proof.
  intros K G DR. pose proof (strict_exact cd sched l K G DR) as SE. destruct (run_archive cd sched l) as [[xs r] w].
  intros R WK LB EC CK. apply (SE R WK LB EC); (eapply Forall_impl; [|exact CK]); now intros x [? ?].
Qed.
