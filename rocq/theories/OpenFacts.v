(** Opening a well-formed archive: the reader's report is the one SpecArchive asks for. *)
From Verif Require Import Base BaseFacts SpecFormat SpecCrc SpecUtf8 SpecArchive Crc32 CrcFacts Utf8 Utf8Facts ZString ZDate
  Headers HeadersFacts ExtraField ExtraFieldFacts Entry IO IOFacts Locator LocatorFacts Reader ReaderFacts.
Arguments N.add : simpl never.
Arguments N.sub : simpl never.
Arguments N.min : simpl never.
Arguments N.mul : simpl never.

(** ** names and comments *)
Fixpoint find_u (sel : extra_field -> option unicode_field) (basic : bytes) (l : list extra_field) : option (option bytes) :=
  match l with
  | [] => None
  | x :: r => match sel x with
              | Some u => match try_unicode basic u with Some o => Some o | None => find_u sel basic r end
              | None => find_u sel basic r
              end
  end.
Definition sel_path x := match x with XPath u => Some u | _ => None end.
Definition sel_comment x := match x with XComment u => Some u | _ => None end.
Lemma find_upath_u basic l : find_upath basic l = find_u sel_path basic l.
Proof. induction l as [|[| |u|] l IH]; cbn; rewrite ?IH; reflexivity. Qed.
Lemma find_ucomment_u basic l : find_ucomment basic l = find_u sel_comment basic l.
Proof. induction l as [|[|u| |] l IH]; cbn; rewrite ?IH; reflexivity. Qed.

Lemma find_u_spec sel mk basic l :
  (forall x u, sel x = Some u <-> x = mk u) -> (forall u v, mk u = mk v -> u = v) ->
  match find_u sel basic l with
  | None => Forall (fun x => ~ speaks_of mk basic x) l
  | Some o => exists pre text post, l = pre ++ mk (UV1 (crc32_spec basic) text) :: post /\
      Forall (fun x => ~ speaks_of mk basic x) pre /\ o = (if utf8_valid text then Some text else None)
  end.
Proof.
  intros Hsel Hinj. induction l as [|x l IH]; [constructor|]. cbn [find_u].
  assert (K : ~ speaks_of mk basic x ->
    match find_u sel basic l with
    | None => Forall (fun x => ~ speaks_of mk basic x) (x :: l)
    | Some o => exists pre text post, x :: l = pre ++ mk (UV1 (crc32_spec basic) text) :: post /\
        Forall (fun x => ~ speaks_of mk basic x) pre /\ o = (if utf8_valid text then Some text else None)
    end).
  { intro Hx. destruct (find_u sel basic l) as [o|].
    - destruct IH as (pre & text & post & -> & F & ->). exists (x :: pre), text, post. repeat split. now constructor.
    - now constructor. }
  destruct (sel x) as [u|] eqn:E.
  - apply Hsel in E. subst x. destruct u as [crc text|v d]; cbn [try_unicode].
    + rewrite <- crc32_is_spec in *. destruct (crc =? crc32 basic) eqn:Ec.
      * apply N.eqb_eq in Ec. subst crc. exists [], text, l. repeat split. constructor.
      * apply K. intros [t Ht]. apply Hinj in Ht. rewrite <- crc32_is_spec in Ht. injection Ht as Hc _. lia.
    + apply K. intros [t Ht]. now apply Hinj in Ht.
  - apply K. intros [t Ht]. apply Hsel in Ht. congruence.
Qed.

Lemma is_ascii_iff l : is_ascii l = true <-> ascii l.
Proof.
  unfold is_ascii, ascii. rewrite forallb_forall, Forall_forall. split; intros H x Hx; specialize (H x Hx); lia.
Qed.

Lemma detect_with_spec sel mk basic flag l :
  (forall x u, sel x = Some u <-> x = mk u) -> (forall u v, mk u = mk v -> u = v) ->
  reads_as mk flag l basic (detect_with basic flag (find_u sel basic l)).
Proof.
  intros Hsel Hinj. pose proof (find_u_spec sel mk basic l Hsel Hinj) as F. unfold detect_with.
  destruct flag.
  - unfold zs_new. destruct (utf8_valid basic) eqn:E.
    + apply ra_flag; [easy|]. now apply utf8_valid_iff.
    + apply ra_flag_invalid; [easy|]. intro H. apply utf8_valid_iff in H. congruence.
  - assert (K : no_text mk basic l ->
      reads_as mk false l basic (if is_ascii basic then zs_from_string basic else zs_new basic ERaw)).
    { intro Hn. destruct (is_ascii basic) eqn:E.
      - apply ra_ascii; [easy|easy|]. now apply is_ascii_iff.
      - apply ra_raw; [easy|easy|]. intro H. apply is_ascii_iff in H. congruence. }
    destruct (find_u sel basic l) as [o|].
    + destruct F as (pre & text & post & E & Hp & ->). destruct (utf8_valid text) eqn:Et.
      * apply (ra_field _ _ _ _ pre text post); try easy. now apply utf8_valid_iff.
      * apply K. right. exists pre, text, post. repeat split; try easy. intro H. apply utf8_valid_iff in H. congruence.
    + apply K. now left.
Qed.

Lemma detect_filename_spec basic flag l : reads_as XPath flag l basic (detect_filename basic flag l).
Proof.
  unfold detect_filename. rewrite find_upath_u. apply detect_with_spec.
  - intros [| |u|] v; cbn; split; congruence.
  - congruence.
Qed.
Lemma detect_comment_spec basic flag l : reads_as XComment flag l basic (detect_comment basic flag l).
Proof.
  unfold detect_comment. rewrite find_ucomment_u. apply detect_with_spec.
  - intros [|u| |] v; cbn; split; congruence.
  - congruence.
Qed.

(** ** extra fields *)
Lemma opt_field_le k o : opt_field k o = opt_le k (fun x => x) o.
Proof. destruct o; [apply le_to_le|reflexivity]. Qed.
Lemma spec_unicode_payload u : spec_unicode u = unicode_payload u.
Proof. destruct u; cbn [spec_unicode unicode_payload]; now rewrite ?le_to_le. Qed.
Lemma spec_payload_eq x : spec_payload x = field_payload x.
Proof.
  destruct x; cbn [spec_payload field_payload]; [|apply spec_unicode_payload|apply spec_unicode_payload|reflexivity].
  unfold zip64_payload. now rewrite !opt_field_le.
Qed.
Lemma spec_id_eq x : spec_id x = field_id x. Proof. now destruct x. Qed.
Lemma spec_extras_eq l : spec_extras l = fields_image l.
Proof.
  unfold spec_extras, fields_image. f_equal. apply map_ext. intro x. now rewrite spec_payload_eq, spec_id_eq.
Qed.

Lemma plain_field_wt x : plain_field x -> field_wt x.
Proof. destruct x as [z|[c t|v t]|[c t|v t]|id sz c]; cbn; try easy. Qed.
Lemma plain_consistent u c x : plain_field x -> field_consistent u c x.
Proof. destruct x; cbn; easy. Qed.

Lemma len_image_field l x : In x l -> len (field_payload x) <= len (fields_image l).
Proof.
  unfold fields_image. induction l as [|y l IH]; [easy|]. cbn [map concat]. rewrite len_app, len_extra.
  intros [->|H]; [lia|]. specialize (IH H). lia.
Qed.

Lemma heard_eq l : heard l = heard_fields l.
Proof. unfold heard, heard_fields. destruct (rev l) as [|x r]; [reflexivity|]. now rewrite spec_payload_eq. Qed.

Lemma a_zip64_wt a : member_ok a -> Forall field_wt (a_zip64 a).
Proof.
  intros (_&_&_&_&_&_&_&_&Hu&Hc&Ho&Hd&_). unfold a_zip64. destruct (_ || _); [|constructor].
  constructor; [|constructor]. cbn [field_wt]. unfold zip64_wt. cbn [zf_uncompressed zf_compressed zf_offset zf_disk].
  unfold fits in *. destruct (a_u64 a), (a_c64 a), (a_o64 a), (a_d64 a); cbn [when opt_lt]; repeat split; try exact I; assumption.
Qed.

Lemma member_parse cfg a : member_ok a ->
  parse_extra_fields cfg (spec_extras (a_extras a)) (kept (a_u64 a) 0xFFFFFFFF (a_usize a))
    (kept (a_c64 a) 0xFFFFFFFF (a_csize a)) = Ok (heard (a_extras a)).
Proof.
  intro H. pose proof (a_zip64_wt a H) as W.
  destruct H as (_&_&_&_&_&_&_&_&Hu&Hc&Ho&Hd&Su&Sc&_&_&Hx&Fb&Fa).
  rewrite spec_extras_eq in *. rewrite heard_eq. apply parse_fields_image_any.
  - unfold a_extras. rewrite !Forall_app. repeat split; [|easy|];
      (eapply Forall_impl; [|eassumption]); intros; now apply plain_field_wt.
  - unfold a_extras. rewrite !Forall_app. repeat split;
      [eapply Forall_impl; [|exact Fb]; intros; now apply plain_consistent| |
       eapply Forall_impl; [|exact Fa]; intros; now apply plain_consistent].
    unfold a_zip64 in *. destruct (_ || _); [|constructor]. constructor; [|constructor].
    cbn [field_consistent]. unfold zip64_consistent. cbn [zf_uncompressed zf_compressed].
    specialize (Su ltac:(discriminate)). specialize (Sc ltac:(discriminate)).
    destruct (a_u64 a), (a_c64 a); cbn [when kept]; repeat split; try discriminate; try easy; intro E; exfalso;
      first [now apply Su | now apply Sc].
  - apply Forall_forall. intros x Hin. apply len_image_field in Hin. lia.
Qed.

Lemma zip64_of_plain l r : Forall plain_field l -> get_zip64_extra_field (l ++ r) = get_zip64_extra_field r.
Proof. induction 1 as [|x l Hx Hl IH]; [reflexivity|]. destruct x; cbn; try easy. Qed.

(** what is left out is of no consequence *)
Lemma a_extras_heard a : member_ok a ->
  a_extras a = heard (a_extras a) \/ exists id sz, a_extras a = heard (a_extras a) ++ [XUnknown id sz []].
Proof.
  intros (_&_&_&_&_&_&_&_&_&_&_&_&_&_&_&_&_&Fb&Fa). unfold heard. destruct (rev (a_extras a)) as [|x r] eqn:E.
  { left. apply (f_equal (@rev _)) in E. now rewrite rev_involutive in E. }
  destruct (spec_payload x) as [|b p] eqn:Ep; [right|now left].
  assert (E' : a_extras a = rev r ++ [x]) by (apply (f_equal (@rev _)) in E; now rewrite rev_involutive in E).
  assert (I : In x (a_extras a)) by (rewrite E'; apply in_or_app; right; now left).
  assert (X : exists id sz c, x = XUnknown id sz c).
  { destruct x as [z|u|u|id sz c]; [| | |eauto].
    - exfalso. unfold a_extras in I. rewrite !in_app_iff in I. rewrite Forall_forall in Fb, Fa.
      destruct I as [I|[I|I]]; [exact (Fb _ I)| |exact (Fa _ I)]. unfold a_zip64 in I.
      destruct (a_u64 a), (a_c64 a), (a_o64 a), (a_d64 a); cbn [orb] in I; try easy; destruct I as [I|[]]; injection I as <-; discriminate.
    - destruct u; discriminate.
    - destruct u; discriminate. }
  destruct X as (id & sz & c & ->). cbn in Ep. subst c. exists id, sz. exact E'.
Qed.
Lemma zip64_unknown l id sz c : get_zip64_extra_field (l ++ [XUnknown id sz c]) = get_zip64_extra_field l.
Proof. induction l as [|[] l IH]; cbn; auto. Qed.
Lemma find_path_unknown b l id sz c : find_upath b (l ++ [XUnknown id sz c]) = find_upath b l.
Proof. induction l as [|[] l IH]; cbn; auto. now rewrite IH. Qed.
Lemma find_comment_unknown b l id sz c : find_ucomment b (l ++ [XUnknown id sz c]) = find_ucomment b l.
Proof. induction l as [|[] l IH]; cbn; auto. now rewrite IH. Qed.
Lemma heard_zip64 a : member_ok a -> get_zip64_extra_field (heard (a_extras a)) = get_zip64_extra_field (a_extras a).
Proof. intro H. destruct (a_extras_heard a H) as [E|(id & sz & E)]; [now rewrite <- E|]. rewrite E at 2. now rewrite zip64_unknown. Qed.
Lemma heard_filename a n f : member_ok a -> detect_filename n f (heard (a_extras a)) = detect_filename n f (a_extras a).
Proof.
  intro H. unfold detect_filename. destruct (a_extras_heard a H) as [E|(id & sz & E)]; [now rewrite <- E|].
  rewrite E at 2. now rewrite find_path_unknown.
Qed.
Lemma heard_comment a n f : member_ok a -> detect_comment n f (heard (a_extras a)) = detect_comment n f (a_extras a).
Proof.
  intro H. unfold detect_comment. destruct (a_extras_heard a H) as [E|(id & sz & E)]; [now rewrite <- E|].
  rewrite E at 2. now rewrite find_comment_unknown.
Qed.

(** ** one member *)
Definition member_body (a : member) : bytes :=
  record [(2%nat, a_made_by a); (2%nat, a_needed a); (2%nat, a_flags a); (2%nat, compression_to (a_method a));
          (2%nat, a_time a); (2%nat, a_date a); (4%nat, a_crc a); (4%nat, kept (a_c64 a) 0xFFFFFFFF (a_csize a));
          (4%nat, kept (a_u64 a) 0xFFFFFFFF (a_usize a)); (2%nat, len (a_name a));
          (2%nat, len (spec_extras (a_extras a))); (2%nat, len (a_comment a)); (2%nat, kept (a_d64 a) 0xFFFF (a_disk a));
          (2%nat, a_iattr a); (4%nat, a_eattr a); (4%nat, kept (a_o64 a) 0xFFFFFFFF (a_offset a))].
Definition member_img (a : member) : cdimg :=
  {| ci_body := member_body a; ci_name := a_name a; ci_extra := spec_extras (a_extras a); ci_comment := a_comment a |}.
Definition member_cdr (a : member) : cdr :=
  {| c_v_made_by := a_made_by a; c_v_needed := a_needed a; c_flags := gp_from (a_flags a);
     c_compression := compression_to (a_method a); c_mod_time := a_time a; c_mod_date := a_date a; c_crc := a_crc a;
     c_compressed_size := kept (a_c64 a) 0xFFFFFFFF (a_csize a); c_uncompressed_size := kept (a_u64 a) 0xFFFFFFFF (a_usize a);
     c_file_name_length := len (a_name a); c_extra_field_length := len (spec_extras (a_extras a));
     c_file_comment_length := len (a_comment a); c_disk_start := kept (a_d64 a) 0xFFFF (a_disk a);
     c_inter_attr := a_iattr a; c_exter_attr := a_eattr a; c_lh_offset := kept (a_o64 a) 0xFFFFFFFF (a_offset a) |}.

Lemma member_bytes a : ci_bytes (member_img a) = member_record a.
Proof.
  unfold ci_bytes, member_record, central_header, member_img, member_body. cbn [ci_body ci_name ci_extra ci_comment].
  unfold record at 2. cbn [map concat]. rewrite <- !app_assoc. cbn [fst snd]. rewrite le_to_le. f_equal.
Qed.

Lemma method_bound m : compression_to m < 65536. Proof. destruct m; reflexivity. Qed.
Lemma method_back m : compression_try_from (compression_to m) = Ok m. Proof. destruct m; reflexivity. Qed.

Lemma kept_bound (b : bool) p v n : p < n -> (if b then True else v < n) -> kept b p v < n.
Proof. destruct b; cbn; auto. Qed.

Lemma member_header a : member_ok a -> ci_header (member_img a) = member_cdr a.
Proof.
  intros (H1&H2&H3&H4&H5&H6&H7&H8&Hu&Hc&Ho&Hd&_&_&Hn&Hk&Hx&_).
  unfold ci_header, member_img, member_body, record. cbn [ci_body map concat fst snd]. rewrite !le_to_le.
  assert (Bc : kept (a_c64 a) 0xFFFFFFFF (a_csize a) < 4294967296).
  { apply kept_bound; [easy|]. unfold fits in Hc. now destruct (a_c64 a). }
  assert (Bu : kept (a_u64 a) 0xFFFFFFFF (a_usize a) < 4294967296).
  { apply kept_bound; [easy|]. unfold fits in Hu. now destruct (a_u64 a). }
  assert (Bo : kept (a_o64 a) 0xFFFFFFFF (a_offset a) < 4294967296).
  { apply kept_bound; [easy|]. unfold fits in Ho. now destruct (a_o64 a). }
  assert (Bd : kept (a_d64 a) 0xFFFF (a_disk a) < 65536).
  { apply kept_bound; [easy|]. now destruct (a_d64 a). }
  pose proof (method_bound (a_method a)) as Bm.
  apply cdr_from_fields; assumption.
Qed.

Lemma member_img_ok a : member_ok a -> ci_ok (member_img a).
Proof.
  intro H. unfold ci_ok. rewrite member_header by easy. cbn [member_cdr c_file_name_length c_extra_field_length c_file_comment_length].
  repeat split; reflexivity.
Qed.

Lemma member_view cfg a : member_ok a -> exists e, ci_view cfg (member_img a) = Ok e /\ reported a e.
Proof.
  intro H. unfold ci_view. rewrite member_header by easy. unfold cd_view, member_img.
  cbn [ci_body ci_name ci_extra ci_comment member_cdr c_compression c_uncompressed_size c_compressed_size].
  rewrite method_back. cbn [rbind]. rewrite member_parse by easy. cbn [rbind]. eexists. split; [reflexivity|].
  assert (Z : get_zip64_extra_field (a_extras a) =
     if a_u64 a || a_c64 a || a_o64 a || a_d64 a then
       Some {| zf_uncompressed := when (a_u64 a) (a_usize a); zf_compressed := when (a_c64 a) (a_csize a);
               zf_offset := when (a_o64 a) (a_offset a); zf_disk := when (a_d64 a) (a_disk a) |} else None).
  { destruct H as (_&_&_&_&_&_&_&_&_&_&_&_&_&_&_&_&_&Fb&Fa). unfold a_extras, a_zip64. rewrite zip64_of_plain by easy.
    destruct (_ || _); [reflexivity|]. cbn [app]. rewrite <- (app_nil_r (a_after a)). now rewrite zip64_of_plain. }
  unfold reported, cd_entry_view, cd_sizes, cd_offset. rewrite heard_zip64, heard_filename, heard_comment by easy. rewrite Z.
  cbn [st_entry st_file_offset st_header_size en_filename en_comment en_compression en_crc32 en_uncompressed_size
    en_compressed_size en_date en_iattr en_eattr en_attr_compat en_extra en_data_descriptor member_cdr c_flags c_crc
    c_mod_date c_mod_time c_inter_attr c_exter_attr c_file_name_length c_extra_field_length c_lh_offset c_uncompressed_size
    c_compressed_size].
  rewrite gp_from_bits. cbn [gp_filename_unicode gp_data_descriptor].
  split; [apply detect_filename_spec|]. split; [apply detect_comment_spec|].
  repeat split; try lia.
  - destruct (a_u64 a), (a_c64 a), (a_o64 a), (a_d64 a); reflexivity.
  - destruct (a_u64 a), (a_c64 a), (a_o64 a), (a_d64 a); reflexivity.
  - destruct H as (_&_&_&_&_&_&_&_&_&_&Ho&_).
    destruct (a_u64 a), (a_c64 a), (a_o64 a), (a_d64 a); cbn [orb when zf_offset kept]; try reflexivity;
    now destruct (a_offset a =? NON_ZIP64_MAX_SIZE).
Qed.

Lemma members_images l : members l = cd_images (map member_img l).
Proof. unfold members, cd_images. f_equal. rewrite map_map. apply map_ext. intro a. symmetry. apply member_bytes. Qed.

Lemma members_views cfg l : Forall member_ok l ->
  exists es, Forall2 (fun i e => ci_view cfg i = Ok e) (map member_img l) es /\ Forall2 reported l es.
Proof.
  induction 1 as [|a l Ha Hl (es & IH1 & IH2)]; [now exists []; split; constructor|].
  destruct (member_view cfg a Ha) as (e & E & R). exists (e :: es). now split; constructor.
Qed.
Lemma members_ok l : Forall member_ok l -> Forall ci_ok (map member_img l).
Proof. intro H. apply Forall_map. eapply Forall_impl; [|exact H]. intros; now apply member_img_ok. Qed.

Lemma zs_comment c : comment_reads_as c (zs_new c EUtf8).
Proof.
  unfold zs_new. destruct (utf8_valid c) eqn:E.
  - apply comment_text. now apply utf8_valid_iff.
  - apply comment_raw. intro H. apply utf8_valid_iff in H. congruence.
Qed.

(** lifting from the cooperative source to any source *)
Lemma file_any_schedule cfg s : nofail (s_sched s) -> fst (file cfg s) = fst (file cfg (src (s_data s) (s_pos s))).
Proof.
  intro N. pose proof (insens_file cfg s) as I. unfold agrees in I. fold (calm s).
  destruct (file cfg s) as [r s']. destruct (file cfg (calm s)) as [r0 s0].
  destruct I as (_ & _ & _ & used & Hu & [(_ & -> & _)|(pre & c & -> & _ & _)]); [easy|].
  exfalso. rewrite Hu, <- app_assoc in N. apply nofail_app in N as [_ N]. inversion N; subst. discriminate.
Qed.

(** the end record as the reader parses it *)
Definition end_body (disk cd_disk n1 n2 cd_size cd_offset clen : N) : bytes :=
  eocdr_as_slice {| e_disk_num := disk; e_start_cent_dir_disk := cd_disk; e_num_of_entries_disk := n1; e_num_of_entries := n2;
    e_size_cent_dir := cd_size; e_cent_dir_offset := cd_offset; e_file_comm_length := clen |}.

Lemma end_record_eq disk cd_disk n1 n2 cd_size cd_offset clen :
  end_record disk cd_disk n1 n2 cd_size cd_offset clen = EOCDR_SIG ++ end_body disk cd_disk n1 n2 cd_size cd_offset clen.
Proof. symmetry. apply eocdr_layout. Qed.

Lemma end_body_from disk cd_disk n1 n2 cd_size cd_offset clen :
  disk < 65536 -> cd_disk < 65536 -> n1 < 65536 -> n2 < 65536 -> cd_size < 4294967296 -> cd_offset < 4294967296 ->
  clen < 65536 ->
  eocdr_from (end_body disk cd_disk n1 n2 cd_size cd_offset clen) =
  {| e_disk_num := disk; e_start_cent_dir_disk := cd_disk; e_num_of_entries_disk := n1; e_num_of_entries := n2;
     e_size_cent_dir := cd_size; e_cent_dir_offset := cd_offset; e_file_comm_length := clen |}.
Proof. intros. apply eocdr_roundtrip. repeat split; assumption. Qed.

Lemma locate_end_rest d p0 before disk cd_disk n1 n2 cd_size cd_offset clen rest :
  d = before ++ end_record disk cd_disk n1 n2 cd_size cd_offset clen ++ rest ->
  (forall q, occurs EOCDR_SIG d q -> q <= len before) -> len rest <= 65535 ->
  locate d p0 = Ok (len before + 4) /\
  drop (len before + 4) d = end_body disk cd_disk n1 n2 cd_size cd_offset clen ++ rest.
Proof.
  intros E Hlast Hlen. rewrite end_record_eq, <- app_assoc in E.
  assert (O : occurs EOCDR_SIG d (len before)) by (eexists _, _; split; [exact E|reflexivity]).
  split.
  - apply locate_last; [easy|easy|]. rewrite E, !len_app. change (len EOCDR_SIG) with 4.
    unfold end_body. rewrite len_eocdr. lia.
  - rewrite E. apply (drop_step 4 _ _ EOCDR_SIG); [|reflexivity]. now apply drop_app_exact.
Qed.

Lemma locate_end d p0 before disk cd_disk n1 n2 cd_size cd_offset clen comment tail :
  d = before ++ end_record disk cd_disk n1 n2 cd_size cd_offset clen ++ comment ++ tail ->
  (forall q, occurs EOCDR_SIG d q -> q <= len before) -> len comment + len tail <= 65535 ->
  locate d p0 = Ok (len before + 4) /\
  drop (len before + 4) d = end_body disk cd_disk n1 n2 cd_size cd_offset clen ++ comment ++ tail.
Proof. intros E H L. apply (locate_end_rest d p0 before _ _ _ _ _ _ _ _ E H). rewrite len_app. lia. Qed.

Lemma open_classic_views cfg s l es lead gap disk cd_size clen rest :
  Forall member_ok l ->
  s_data s = lead ++ members l ++ gap ++ end_record disk disk (len l) (len l) cd_size (len lead) clen ++ rest ->
  disk < 0x10000 -> len l < 0x10000 -> cd_size < 0x100000000 -> len lead < 0x100000000 ->
  clen < 0x10000 -> len rest <= 65535 ->
  (forall q, found_at (le 4 0x06054b50) (s_data s) q -> q <= len (lead ++ members l ++ gap)) ->
  (20 <= len (lead ++ members l ++ gap) ->
     ~ found_at (le 4 0x07064b50) (s_data s) (len (lead ++ members l ++ gap) - 20)) ->
  nofail (s_sched s) -> len l * entry_mem_size cfg <= isize_max ->
  Forall2 (fun i e => ci_view cfg i = Ok e) (map member_img l) es ->
  fst (file cfg s) = Ok {| f_entries := es; f_zip64 := false; f_comment := zs_new (take clen rest) EUtf8 |}.
Proof.
  intros Hok E Hd Hn Hs Ho Hcl Hc Hlast Hloc Hnf Hmem Hv.
  rewrite file_any_schedule by easy. set (d := s_data s) in *.
  assert (E' : d = (lead ++ members l ++ gap) ++ end_record disk disk (len l) (len l) cd_size (len lead) clen ++ rest) by (rewrite E, <- !app_assoc; reflexivity).
  destruct (locate_end_rest d (s_pos s) _ _ _ _ _ _ _ _ _ E' Hlast Hc) as [HL HD].
  rewrite (file_classic_rest cfg d (s_pos s) _ _ _ HL HD).
  - rewrite end_body_from by lia.
    eapply (directory_here cfg _ _ _ d (map member_img l) es).
    all: cbn [combined_from cb_disk_number cb_disk_number_start_of_cd cb_num_entries cb_num_entries_on_disk cb_offset
      e_disk_num e_start_cent_dir_disk e_num_of_entries_disk e_num_of_entries e_cent_dir_offset].
    + reflexivity.
    + reflexivity.
    + unfold len. now rewrite map_length.
    + unfold len in *. now rewrite map_length.
    + rewrite E, <- members_images. now apply drop_app_exact.
    + now apply members_ok.
    + exact Hv.
  - reflexivity.
  - intros H O. apply Hloc; [lia|]. replace (len (lead ++ members l ++ gap) - 20)
      with (len (lead ++ members l ++ gap) + 4 - 24) by lia. rewrite le_to_le. exact O.
Qed.

Lemma open_classic cfg s l lead gap disk cd_size comment tail :
  Forall member_ok l ->
  s_data s = lead ++ members l ++ gap ++ end_record disk disk (len l) (len l) cd_size (len lead) (len comment)
             ++ comment ++ tail ->
  disk < 0x10000 -> len l < 0x10000 -> cd_size < 0x100000000 -> len lead < 0x100000000 ->
  len comment + len tail <= 65535 ->
  (forall q, found_at (le 4 0x06054b50) (s_data s) q -> q <= len (lead ++ members l ++ gap)) ->
  (20 <= len (lead ++ members l ++ gap) ->
     ~ found_at (le 4 0x07064b50) (s_data s) (len (lead ++ members l ++ gap) - 20)) ->
  nofail (s_sched s) -> len l * entry_mem_size cfg <= isize_max ->
  exists f, fst (file cfg s) = Ok f /\ reported_file l false comment f.
Proof.
  intros Hok E Hd Hn Hs Ho Hc Hlast Hloc Hnf Hmem.
  destruct (members_views cfg l Hok) as (es & Hv & Hr).
  exists {| f_entries := es; f_zip64 := false; f_comment := zs_new comment EUtf8 |}.
  split; [|split; [exact Hr|split; [reflexivity|apply zs_comment]]].
  rewrite (open_classic_views cfg s l es lead gap disk cd_size (len comment) (comment ++ tail)) by (try assumption; try lia; rewrite ?len_app; try lia; intros q Q; specialize (Hlast q Q); rewrite ?len_app; lia).
  now rewrite take_app_exact.
Qed.

Definition zip64_body (size made_by needed disk cd_disk n1 n2 cd_size cd_offset : N) : z64_eocdr :=
  {| z_size := size; z_version_made_by := made_by; z_version_needed := needed; z_disk_number := disk;
     z_disk_number_start_of_cd := cd_disk; z_num_entries_on_disk := n1; z_num_entries := n2;
     z_directory_size := cd_size; z_offset := cd_offset |}.
Lemma zip64_end_eq size made_by needed disk cd_disk n1 n2 cd_size cd_offset :
  zip64_end size made_by needed disk cd_disk n1 n2 cd_size cd_offset =
  to_le 4 ZIP64_EOCDR_SIGNATURE ++ z64_eocdr_as_bytes (zip64_body size made_by needed disk cd_disk n1 n2 cd_size cd_offset).
Proof.
  unfold zip64_end, record, z64_eocdr_as_bytes, zip64_body. cbn [map concat fst snd z_size z_version_made_by z_version_needed
    z_disk_number z_disk_number_start_of_cd z_num_entries_on_disk z_num_entries z_directory_size z_offset].
  now rewrite !le_to_le, app_nil_r.
Qed.
Lemma zip64_locator_eq disk off disks :
  zip64_end_locator disk off disks =
  to_le 4 ZIP64_EOCDL_SIGNATURE ++ z64_eocdl_as_bytes {| zl_disk := disk; zl_relative_offset := off; zl_total_disks := disks |}.
Proof. symmetry. apply z64_eocdl_layout. Qed.

(** With a ZIP64 record: whatever the classic fields are, the chosen values decide. *)
Lemma open_zip64_directory_rest cfg s before between clen rest size made_by needed zdisk zcd zn1 zn2 zsize zoff ldisk ldisks
    disk cd_disk n1 n2 cd_size off :
  let z := zip64_body size made_by needed zdisk zcd zn1 zn2 zsize zoff in
  s_data s = before ++ zip64_end size made_by needed zdisk zcd zn1 zn2 zsize zoff ++ between ++
             zip64_end_locator ldisk (len before) ldisks ++
             end_record disk cd_disk n1 n2 cd_size off clen ++ rest ->
  z64_eocdr_ok z -> ldisk < 0x100000000 -> ldisks < 0x100000000 -> len (s_data s) < 0x10000000000000000 ->
  disk < 0x10000 -> cd_disk < 0x10000 -> n1 < 0x10000 -> n2 < 0x10000 -> cd_size < 0x100000000 -> off < 0x100000000 ->
  clen < 0x10000 -> len rest <= 65535 ->
  (forall q, found_at (le 4 0x06054b50) (s_data s) q -> q + 22 + len rest <= len (s_data s)) ->
  nofail (s_sched s) ->
  fst (file cfg s) = fst (directory cfg (combine
    {| e_disk_num := disk; e_start_cent_dir_disk := cd_disk; e_num_of_entries_disk := n1; e_num_of_entries := n2;
       e_size_cent_dir := cd_size; e_cent_dir_offset := off; e_file_comm_length := clen |} z)
    true (zs_new (take clen rest) EUtf8) (src (s_data s) 0)).
Proof.
  intros z E Hz Hld Hlds Hd Hdisk Hcd Hn1 Hn2 Hcs Hoff Hcl Hc Hlast Hnf.
  rewrite file_any_schedule by easy. set (d := s_data s) in *.
  set (mid := before ++ zip64_end size made_by needed zdisk zcd zn1 zn2 zsize zoff ++ between).
  assert (Em : d = mid ++ zip64_end_locator ldisk (len before) ldisks ++
             end_record disk cd_disk n1 n2 cd_size off clen ++ rest)
    by (rewrite E; unfold mid; now rewrite <- !app_assoc).
  assert (E' : d = (mid ++ zip64_end_locator ldisk (len before) ldisks) ++
             end_record disk cd_disk n1 n2 cd_size off clen ++ rest)
    by (rewrite Em; now rewrite <- !app_assoc).
  assert (LL : len (zip64_end_locator ldisk (len before) ldisks) = 20) by reflexivity.
  assert (LE : len (end_record disk cd_disk n1 n2 cd_size off clen) = 22) by reflexivity.
  destruct (locate_end_rest d (s_pos s) _ _ _ _ _ _ _ _ _ E') as [HL HD].
  { intros q Hq. specialize (Hlast q). rewrite le_to_le in Hlast. specialize (Hlast Hq).
    rewrite E' in Hlast. rewrite !len_app, LL, LE in Hlast. rewrite len_app, LL. lia. }
  { lia. }
  assert (Hb : len before < 18446744073709551616 - 4).
  { rewrite E, !len_app, LL, LE in Hd. lia. }
  rewrite zip64_locator_eq in Em. rewrite <- app_assoc in Em.
  assert (LO : z64_eocdl_from (z64_eocdl_as_bytes {| zl_disk := ldisk; zl_relative_offset := len before; zl_total_disks := ldisks |})
     = {| zl_disk := ldisk; zl_relative_offset := len before; zl_total_disks := ldisks |}).
  { apply z64_eocdl_roundtrip. repeat split; cbn [zl_disk zl_relative_offset zl_total_disks]; lia. }
  erewrite (file_zip64_rest cfg d (s_pos s) _ _ _ (z64_eocdl_as_bytes {| zl_disk := ldisk; zl_relative_offset := len before; zl_total_disks := ldisks |})
             (z64_eocdr_as_bytes z) _ _ HL HD).
  - rewrite end_body_from by lia. rewrite z64_eocdr_roundtrip by easy. reflexivity.
  - reflexivity.
  - rewrite len_app, LL. lia.
  - rewrite len_app, LL. replace (len mid + 20 + 4 - 24) with (len mid) by lia. rewrite Em. now apply drop_app_exact.
  - reflexivity.
  - rewrite LO. cbn [zl_relative_offset]. unfold u64_max. lia.
  - rewrite LO. cbn [zl_relative_offset]. rewrite E. rewrite zip64_end_eq, <- app_assoc.
    apply (drop_step 4 _ _ (to_le 4 ZIP64_EOCDR_SIGNATURE)); [|reflexivity]. now apply drop_app_exact.
  - reflexivity.
Qed.

Lemma open_zip64_directory cfg s before between comment tail size made_by needed zdisk zcd zn1 zn2 zsize zoff ldisk ldisks
    disk cd_disk n1 n2 cd_size off :
  let z := zip64_body size made_by needed zdisk zcd zn1 zn2 zsize zoff in
  s_data s = before ++ zip64_end size made_by needed zdisk zcd zn1 zn2 zsize zoff ++ between ++
             zip64_end_locator ldisk (len before) ldisks ++
             end_record disk cd_disk n1 n2 cd_size off (len comment) ++ comment ++ tail ->
  z64_eocdr_ok z -> ldisk < 0x100000000 -> ldisks < 0x100000000 -> len (s_data s) < 0x10000000000000000 ->
  disk < 0x10000 -> cd_disk < 0x10000 -> n1 < 0x10000 -> n2 < 0x10000 -> cd_size < 0x100000000 -> off < 0x100000000 ->
  len comment + len tail <= 65535 ->
  (forall q, found_at (le 4 0x06054b50) (s_data s) q -> q + 22 + len comment + len tail <= len (s_data s)) ->
  nofail (s_sched s) ->
  fst (file cfg s) = fst (directory cfg (combine
    {| e_disk_num := disk; e_start_cent_dir_disk := cd_disk; e_num_of_entries_disk := n1; e_num_of_entries := n2;
       e_size_cent_dir := cd_size; e_cent_dir_offset := off; e_file_comm_length := len comment |} z)
    true (zs_new comment EUtf8) (src (s_data s) 0)).
Proof.
  intros z E Hz Hld Hlds Hd Hdisk Hcd Hn1 Hn2 Hcs Hoff Hc Hlast Hnf.
  rewrite (open_zip64_directory_rest cfg s before between (len comment) (comment ++ tail) size made_by needed zdisk zcd zn1 zn2 zsize zoff
    ldisk ldisks disk cd_disk n1 n2 cd_size off) by (try assumption; try lia; rewrite ?len_app; try lia; intros q Q; specialize (Hlast q Q); rewrite ?len_app; lia).
  now rewrite take_app_exact.
Qed.

Lemma open_zip64_views cfg s l es lead gap between clen rest size made_by needed zdisk zcd zn1 zn2 zsize zoff ldisk ldisks
    disk cd_disk n1 n2 cd_size off :
  Forall member_ok l ->
  s_data s = lead ++ members l ++ gap ++ zip64_end size made_by needed zdisk zcd zn1 zn2 zsize zoff ++ between ++
             zip64_end_locator ldisk (len (lead ++ members l ++ gap)) ldisks ++
             end_record disk cd_disk n1 n2 cd_size off clen ++ rest ->
  size < 0x10000000000000000 -> made_by < 0x10000 -> needed < 0x10000 -> zdisk < 0x100000000 -> zcd < 0x100000000 ->
  zn1 < 0x10000000000000000 -> zn2 < 0x10000000000000000 -> zsize < 0x10000000000000000 -> zoff < 0x10000000000000000 ->
  ldisk < 0x100000000 -> ldisks < 0x100000000 -> len (s_data s) < 0x10000000000000000 ->
  disk < 0x10000 -> cd_disk < 0x10000 -> n1 < 0x10000 -> n2 < 0x10000 -> cd_size < 0x100000000 -> off < 0x100000000 ->
  chosen 0xFFFF disk zdisk = chosen 0xFFFF cd_disk zcd ->
  chosen 0xFFFF n1 zn1 = len l -> chosen 0xFFFF n2 zn2 = len l -> chosen 0xFFFFFFFF off zoff = len lead ->
  clen < 0x10000 -> len rest <= 65535 ->
  (forall q, found_at (le 4 0x06054b50) (s_data s) q -> q + 22 + len rest <= len (s_data s)) ->
  nofail (s_sched s) -> len l * entry_mem_size cfg <= isize_max ->
  Forall2 (fun i e => ci_view cfg i = Ok e) (map member_img l) es ->
  fst (file cfg s) = Ok {| f_entries := es; f_zip64 := true; f_comment := zs_new (take clen rest) EUtf8 |}.
Proof.
  intros Hok E Z1 Z2 Z3 Z4 Z5 Z6 Z7 Z8 Z9 L1 L2 Hd H1 H2 H3 H4 H5 H6 C1 C2 C3 C4 Hcl Hc Hlast Hnf Hmem Hv.
  rewrite (open_zip64_directory_rest cfg s (lead ++ members l ++ gap) between clen rest size made_by needed zdisk zcd zn1 zn2
    zsize zoff ldisk ldisks disk cd_disk n1 n2 cd_size off); try assumption.
  - eapply (directory_here cfg _ _ _ _ (map member_img l) es).
    all: cbn [combine combined_from cb_disk_number cb_disk_number_start_of_cd cb_num_entries cb_num_entries_on_disk cb_offset
      e_disk_num e_start_cent_dir_disk e_num_of_entries_disk e_num_of_entries e_cent_dir_offset zip64_body
      z_disk_number z_disk_number_start_of_cd z_num_entries z_num_entries_on_disk z_offset];
      change 65535 with 0xFFFF; change 4294967295 with 0xFFFFFFFF; fold (chosen 0xFFFF disk zdisk) (chosen 0xFFFF cd_disk zcd)
        (chosen 0xFFFF n1 zn1) (chosen 0xFFFF n2 zn2) (chosen 0xFFFFFFFF off zoff).
    + exact C1.
    + congruence.
    + rewrite C3. unfold len. now rewrite map_length.
    + unfold len in *. now rewrite map_length.
    + rewrite C4, E, <- members_images. now apply drop_app_exact.
    + now apply members_ok.
    + exact Hv.
  - rewrite E. now rewrite <- !app_assoc.
  - repeat split; cbn [zip64_body z_size z_version_made_by z_version_needed z_disk_number z_disk_number_start_of_cd
      z_num_entries_on_disk z_num_entries z_directory_size z_offset]; assumption.
Qed.

Lemma open_zip64 cfg s l lead gap between comment tail size made_by needed zdisk zcd zn1 zn2 zsize zoff ldisk ldisks
    disk cd_disk n1 n2 cd_size off :
  Forall member_ok l ->
  s_data s = lead ++ members l ++ gap ++ zip64_end size made_by needed zdisk zcd zn1 zn2 zsize zoff ++ between ++
             zip64_end_locator ldisk (len (lead ++ members l ++ gap)) ldisks ++
             end_record disk cd_disk n1 n2 cd_size off (len comment) ++ comment ++ tail ->
  size < 0x10000000000000000 -> made_by < 0x10000 -> needed < 0x10000 -> zdisk < 0x100000000 -> zcd < 0x100000000 ->
  zn1 < 0x10000000000000000 -> zn2 < 0x10000000000000000 -> zsize < 0x10000000000000000 -> zoff < 0x10000000000000000 ->
  ldisk < 0x100000000 -> ldisks < 0x100000000 -> len (s_data s) < 0x10000000000000000 ->
  disk < 0x10000 -> cd_disk < 0x10000 -> n1 < 0x10000 -> n2 < 0x10000 -> cd_size < 0x100000000 -> off < 0x100000000 ->
  chosen 0xFFFF disk zdisk = chosen 0xFFFF cd_disk zcd ->
  chosen 0xFFFF n1 zn1 = len l -> chosen 0xFFFF n2 zn2 = len l -> chosen 0xFFFFFFFF off zoff = len lead ->
  len comment + len tail <= 65535 ->
  (forall q, found_at (le 4 0x06054b50) (s_data s) q -> q + 22 + len comment + len tail <= len (s_data s)) ->
  nofail (s_sched s) -> len l * entry_mem_size cfg <= isize_max ->
  exists f, fst (file cfg s) = Ok f /\ reported_file l true comment f.
Proof.
  intros Hok E Z1 Z2 Z3 Z4 Z5 Z6 Z7 Z8 Z9 L1 L2 Hd H1 H2 H3 H4 H5 H6 C1 C2 C3 C4 Hc Hlast Hnf Hmem.
  destruct (members_views cfg l Hok) as (es & Hv & Hr).
  exists {| f_entries := es; f_zip64 := true; f_comment := zs_new comment EUtf8 |}.
  split; [|split; [exact Hr|split; [reflexivity|apply zs_comment]]].
  rewrite (open_zip64_views cfg s l es lead gap between (len comment) (comment ++ tail) size made_by needed zdisk zcd zn1 zn2 zsize zoff ldisk ldisks
    disk cd_disk n1 n2 cd_size off) by (try assumption; try lia; rewrite ?len_app; try lia; intros q Q; specialize (Hlast q Q); rewrite ?len_app; lia).
  now rewrite take_app_exact.
Qed.
