(** Opening an archive: schedule independence, results on any layout, no panics. *)
From Verif Require Import Base BaseFacts Crc32 Utf8 ZString ZDate Headers HeadersFacts ExtraField ExtraFieldFacts
  Entry IO IOFacts Locator LocatorFacts Reader.
Arguments N.add : simpl never.
Arguments N.sub : simpl never.
Arguments N.min : simpl never.
Arguments N.mul : simpl never.

(** ** Schedule independence of every step of opening *)
Create HintDb insens.
#[export] Hint Resolve insens_ret insens_lift insens_fail insens_seek_start insens_seek_end insens_seek_current
  insens_read_exact insens_read_bytes insens_locate : insens.

Ltac insens_step :=
  lazymatch goal with
  | |- insens (bind _ _) => apply insens_bind; [|intro]
  | |- insens (if ?b then _ else _) => destruct b
  | |- insens (match ?b with _ => _ end) => destruct b
  | |- insens (let _ := _ in _) => cbv zeta
  | |- _ => solve [auto with insens]
  end.
Ltac insens_tac := repeat insens_step.

Lemma insens_assert_signature x : insens (assert_signature x).
Proof. unfold assert_signature. insens_tac. Qed.
Lemma insens_lfh_from_reader : insens lfh_from_reader.
Proof. unfold lfh_from_reader. insens_tac. Qed.
Lemma insens_eocdr_from_reader : insens eocdr_from_reader.
Proof. unfold eocdr_from_reader. insens_tac. Qed.
Lemma insens_cdr_from_reader : insens cdr_from_reader.
Proof. unfold cdr_from_reader. insens_tac. Qed.
Lemma insens_z64_eocdr_from_reader : insens z64_eocdr_from_reader.
Proof. unfold z64_eocdr_from_reader. insens_tac. Qed.
Lemma insens_z64_eocdl_try : insens z64_eocdl_try_from_reader.
Proof. unfold z64_eocdl_try_from_reader. insens_tac. Qed.
Lemma insens_read_string n e : insens (read_string n e).
Proof. unfold read_string. insens_tac. Qed.
#[export] Hint Resolve insens_assert_signature insens_lfh_from_reader insens_eocdr_from_reader insens_cdr_from_reader
  insens_z64_eocdr_from_reader insens_z64_eocdl_try insens_read_string : insens.

Lemma insens_cd_record cfg : insens (cd_record cfg).
Proof. unfold cd_record. insens_tac. Qed.
#[export] Hint Resolve insens_cd_record : insens.
Lemma insens_cd_loop cfg f : forall n, insens (cd_loop cfg f n).
Proof. induction f as [|f IH]; intro n; cbn [cd_loop]; insens_tac. Qed.
#[export] Hint Resolve insens_cd_loop : insens.

(** [cd] looks at the source only to bound its loop *)
Lemma insens_cd cfg n : insens (cd cfg n).
Proof.
  unfold cd. apply insens_bind; [auto with insens|]. intros _.
  change (bind get (fun s => cd_loop cfg (S (length (s_data s))) n))
    with (fun s : source => (fun d => cd_loop cfg (S (length d)) n) (s_data s) s).
  apply insens_data. intro d. auto with insens.
Qed.
#[export] Hint Resolve insens_cd : insens.

Lemma insens_file cfg : insens (file cfg).
Proof. unfold file. insens_tac. Qed.
Lemma insens_lfh_read cfg : insens (lfh_read cfg).
Proof. unfold lfh_read. insens_tac. Qed.
Lemma insens_seek_to_data_offset e : insens (seek_to_data_offset e).
Proof. unfold seek_to_data_offset. insens_tac. Qed.
#[export] Hint Resolve insens_file insens_lfh_read insens_seek_to_data_offset : insens.

(** ** Running on a cooperative source *)
Lemma bind_ok {S A B} (m : SM S A) (f : A -> SM S B) s a s1 : m s = (Ok a, s1) -> bind m f s = f a s1.
Proof. unfold bind. now intros ->. Qed.
Lemma bind_err {S A B} (m : SM S A) (f : A -> SM S B) s e s1 : m s = (Err e, s1) -> bind m f s = (Err e, s1).
Proof. unfold bind. now intros ->. Qed.
Lemma bind_panic {S A B} (m : SM S A) (f : A -> SM S B) s e s1 : m s = (Panic e, s1) -> bind m f s = (Panic e, s1).
Proof. unfold bind. now intros ->. Qed.
Lemma bind_inv {S A B} (m : SM S A) (f : A -> SM S B) s b s' : bind m f s = (Ok b, s') ->
  exists a s1, m s = (Ok a, s1) /\ f a s1 = (Ok b, s').
Proof. unfold bind. destruct (m s) as [[a|e|p] s1]; [eauto|discriminate|discriminate]. Qed.
Lemma seek_start_src p d q : seek_start p (src d q) = (Ok p, src d p).
Proof. reflexivity. Qed.

(** a computation on a cooperative source leaves a cooperative source over the same data *)
Lemma insens_src {A} (m : SM source A) d p : insens m -> exists r p', m (src d p) = (r, src d p').
Proof.
  intro I. specialize (I (src d p)). unfold agrees in I. rewrite calm_src in I.
  destruct (m (src d p)) as [r s]. destruct I as (C & D & _). exists r, (s_pos s). rewrite C. unfold calm. now rewrite D.
Qed.

(** *** reading one record whose bytes are there *)
Lemma assert_signature_here sg d p y : sg < 4294967296 -> drop p d = to_le 4 sg ++ y ->
  assert_signature sg (src d p) = (Ok tt, src d (p + 4)).
Proof.
  intros B E. unfold assert_signature.
  rewrite (bind_ok _ _ _ _ _ (read_exact_here 4 d p _ _ E (len_to_le 4 sg))).
  rewrite from_to_le4 by easy. now rewrite N.eqb_refl.
Qed.

(** What [cd_record] makes of a header and the three variable-length parts behind it. *)
Definition cd_sizes (h : cdr) (xs : list extra_field) : N * N :=
  get_combined_sizes (c_uncompressed_size h) (c_compressed_size h) (get_zip64_extra_field xs).
Definition cd_offset (h : cdr) (xs : list extra_field) : N :=
  match get_zip64_extra_field xs with
  | Some z => if c_lh_offset h =? NON_ZIP64_MAX_SIZE
              then match zf_offset z with Some o => o | None => c_lh_offset h end else c_lh_offset h
  | None => c_lh_offset h
  end.
Definition cd_entry_view (h : cdr) (name comment : bytes) (c : compression) (xs : list extra_field) : stored_entry :=
  {| st_entry :=
       {| en_filename := detect_filename name (gp_filename_unicode (c_flags h)) xs; en_compression := c;
          en_level := LDefault; en_crc32 := c_crc h; en_uncompressed_size := fst (cd_sizes h xs);
          en_compressed_size := snd (cd_sizes h xs); en_attr_compat := Unix;
          en_date := {| zd_date := c_mod_date h; zd_time := c_mod_time h |};
          en_iattr := c_inter_attr h; en_eattr := c_exter_attr h; en_extra := xs;
          en_comment := detect_comment comment (gp_filename_unicode (c_flags h)) xs;
          en_data_descriptor := gp_data_descriptor (c_flags h) |};
     st_file_offset := cd_offset h xs;
     st_header_size := 30 + (c_file_name_length h + c_extra_field_length h) |}.
Definition cd_view (cfg : config) (h : cdr) (name x comment : bytes) : res stored_entry :=
  let? c := compression_try_from (c_compression h) in
  let? xs := parse_extra_fields cfg x (c_uncompressed_size h) (c_compressed_size h) in
  Ok (cd_entry_view h name comment c xs).

(** a central directory record as bytes: its 42-byte body and the variable parts *)
Record cdimg := { ci_body : bytes; ci_name : bytes; ci_extra : bytes; ci_comment : bytes }.
Definition ci_header (i : cdimg) : cdr := cdr_from (ci_body i).
Definition ci_bytes (i : cdimg) : bytes :=
  to_le 4 CDH_SIGNATURE ++ ci_body i ++ ci_name i ++ ci_extra i ++ ci_comment i.
Definition ci_ok (i : cdimg) : Prop :=
  len (ci_body i) = 42 /\ len (ci_name i) = c_file_name_length (ci_header i) /\
  len (ci_extra i) = c_extra_field_length (ci_header i) /\ len (ci_comment i) = c_file_comment_length (ci_header i).
Definition ci_view (cfg : config) (i : cdimg) : res stored_entry :=
  cd_view cfg (ci_header i) (ci_name i) (ci_extra i) (ci_comment i).

Lemma len_ci_bytes i : ci_ok i -> len (ci_bytes i) = 46 + len (ci_name i) + len (ci_extra i) + len (ci_comment i).
Proof. intros (L & _). unfold ci_bytes. rewrite !len_app, len_to_le, L. lia. Qed.

Lemma cdr_from_reader_here d p b y : drop p d = b ++ y -> len b = 42 ->
  cdr_from_reader (src d p) = (Ok (cdr_from b), src d (p + 42)).
Proof.
  intros E L. unfold cdr_from_reader. now rewrite (bind_ok _ _ _ _ _ (read_exact_here 42 d p _ _ E L)).
Qed.

Lemma cd_record_here cfg d p i y e : drop p d = ci_bytes i ++ y -> ci_ok i -> ci_view cfg i = Ok e ->
  cd_record cfg (src d p) = (Ok e, src d (p + len (ci_bytes i))).
Proof.
  intros E Hok Hv. pose proof (len_ci_bytes i Hok) as LI. destruct Hok as (L1 & L2 & L3 & L4).
  unfold ci_bytes in E. rewrite <- !app_assoc in E.
  unfold ci_view, cd_view in Hv. apply rbind_ok in Hv as (c & Hc & Hv). apply rbind_ok in Hv as (xs & Hx & Hv).
  apply Ok_inj in Hv.
  unfold cd_record.
  rewrite (bind_ok _ _ _ _ _ (assert_signature_here CDH_SIGNATURE d p _ ltac:(reflexivity) E)).
  apply (drop_step 4) in E; [|apply len_to_le].
  rewrite (bind_ok _ _ _ _ _ (cdr_from_reader_here d _ _ _ E L1)). fold (ci_header i).
  apply (drop_step 42) in E; [|easy].
  rewrite (bind_ok _ _ _ _ _ (read_bytes_here _ d _ _ _ E L2)).
  apply (drop_step (c_file_name_length (ci_header i))) in E; [|easy].
  rewrite (bind_ok (lift _) _ _ c (src d (p + 4 + 42 + c_file_name_length (ci_header i)))) by (unfold lift; now rewrite Hc).
  rewrite (bind_ok _ _ _ _ _ (read_bytes_here _ d _ _ _ E L3)).
  apply (drop_step (c_extra_field_length (ci_header i))) in E; [|easy].
  rewrite (bind_ok (lift _) _ _ xs _) by (unfold lift; now rewrite Hx).
  rewrite (bind_ok _ _ _ _ _ (read_bytes_here _ d _ _ _ E L4)).
  subst e. unfold cd_entry_view, cd_sizes, cd_offset.
  destruct (get_combined_sizes _ _ _) as [us cs]. cbn [fst snd]. unfold ret. do 2 f_equal.
  rewrite LI. lia.
Qed.

Definition cd_images (l : list cdimg) : bytes := concat (map ci_bytes l).

Lemma cd_loop_here cfg d : forall l es f p y,
  drop p d = cd_images l ++ y -> Forall ci_ok l -> Forall2 (fun i e => ci_view cfg i = Ok e) l es ->
  (length l < f)%nat ->
  cd_loop cfg f (len l) (src d p) = (Ok es, src d (p + len (cd_images l))).
Proof.
  induction l as [|i l IH]; intros es f p y E Hok Hv Hf; inversion Hv; subst; (destruct f as [|f]; [lia|]).
  - cbn [cd_loop]. change (len (@nil cdimg) =? 0) with true. cbn match. unfold ret. do 2 f_equal.
    change (len (cd_images [])) with 0. lia.
  - rename y0 into e. inversion Hok; subst. cbn [cd_loop]. rewrite len_cons.
    replace (1 + len l =? 0) with false by lia. unfold cd_images in E. cbn [map concat] in E. rewrite <- app_assoc in E.
    fold (cd_images l) in E.
    rewrite (bind_ok _ _ _ _ _ (cd_record_here cfg d p i _ e E ltac:(easy) ltac:(easy))).
    apply (drop_step (len (ci_bytes i))) in E; [|easy]. replace (1 + len l - 1) with (len l) by lia.
    rewrite (bind_ok _ _ _ _ _ (IH l' f _ _ E ltac:(easy) ltac:(easy) ltac:(cbn [length] in Hf; lia))).
    unfold ret. do 2 f_equal. unfold cd_images. cbn [map concat]. rewrite len_app. lia.
Qed.

Lemma len_cd_images l : Forall ci_ok l -> 46 * len l <= len (cd_images l).
Proof.
  induction 1 as [|i l Hi Hl IH]; [reflexivity|]. unfold cd_images in *. cbn [map concat].
  rewrite len_cons, len_app, len_ci_bytes by easy. lia.
Qed.

Lemma cd_here cfg d p l es y :
  drop p d = cd_images l ++ y -> Forall ci_ok l -> Forall2 (fun i e => ci_view cfg i = Ok e) l es ->
  len l * entry_mem_size cfg <= isize_max ->
  cd cfg (len l) (src d p) = (Ok es, src d (p + len (cd_images l))).
Proof.
  intros E Hok Hv Hc. unfold cd, with_capacity.
  replace (len l * entry_mem_size cfg <=? isize_max) with true by lia.
  unfold bind, lift, get. cbn [s_data src]. eapply cd_loop_here; eauto.
  pose proof (len_cd_images l Hok). assert (len (cd_images l) <= len d).
  { apply (f_equal len) in E. rewrite len_app, len_drop in E. lia. }
  unfold len in *. lia.
Qed.

(** *** the whole opening *)
Definition directory (cfg : config) (c : combined) (zip64 : bool) (comment : zstring) : SM source zfile :=
  if negb (cb_disk_number c =? cb_disk_number_start_of_cd c)
     || negb (cb_num_entries c =? cb_num_entries_on_disk c)
  then fail (FeatureNotSupported FSplit)
  else
    seek_start (cb_offset c) ;;;
    entries <- cd cfg (cb_num_entries c) ;;
    ret {| f_entries := entries; f_zip64 := zip64; f_comment := comment |}.

Lemma directory_pos cfg c z k d p p' : fst (directory cfg c z k (src d p)) = fst (directory cfg c z k (src d p')).
Proof. unfold directory. destruct (_ || _); reflexivity. Qed.

Lemma eocdr_from_reader_here d p b y : drop p d = b ++ y -> len b = 18 ->
  eocdr_from_reader (src d p) = (Ok (eocdr_from b), src d (p + 18)).
Proof. intros E L. unfold eocdr_from_reader. now rewrite (bind_ok _ _ _ _ _ (read_exact_here 18 d p _ _ E L)). Qed.
Lemma z64_eocdr_from_reader_here d p b y : drop p d = b ++ y -> len b = 52 ->
  z64_eocdr_from_reader (src d p) = (Ok (z64_eocdr_from b), src d (p + 52)).
Proof. intros E L. unfold z64_eocdr_from_reader. now rewrite (bind_ok _ _ _ _ _ (read_exact_here 52 d p _ _ E L)). Qed.

(** the end record at [q], no ZIP64 locator in front of it *)
Lemma file_classic_rest cfg d p0 q eb rest :
  locate d p0 = Ok q -> drop q d = eb ++ rest -> len eb = 18 ->
  (24 <= q -> ~ occurs (to_le 4 ZIP64_EOCDL_SIGNATURE) d (q - 24)) ->
  fst (file cfg (src d p0)) =
  fst (directory cfg (combined_from (eocdr_from eb)) false
         (zs_new (take (e_file_comm_length (eocdr_from eb)) rest) EUtf8) (src d 0)).
Proof.
  intros Hq E L1 Hno. destruct (eocdr_locate_calm d p0 q Hq) as [p1 H1]. unfold file.
  rewrite (bind_ok _ _ _ _ _ H1). rewrite (bind_ok _ _ _ _ _ (seek_start_src q d p1)).
  rewrite (bind_ok _ _ _ _ _ (eocdr_from_reader_here d q _ _ E L1)).
  apply (drop_step 18) in E; [|easy].
  unfold read_string. erewrite bind_ok; [|erewrite bind_ok; [reflexivity|]; rewrite read_bytes_calm, E; reflexivity].
  change (ZIP64_EOCDL_LENGTH + SIGNATURE_LENGTH) with 24.
  destruct (q <? 24) eqn:Eq.
  - erewrite bind_ok; [|reflexivity]. apply (directory_pos cfg (combined_from (eocdr_from eb)) false).
  - assert (O : occurs EOCDR_SIG d (q - 4)).
    { destruct (locate_spec d p0) as [(q' & Hq' & _ & O & _)|(H & _)]; congruence. }
    apply occurs_iff in O as [O _]. change (len EOCDR_SIG) with 4 in O.
    assert (L4 : len (take 4 (drop (q - 24) d)) = 4) by (rewrite len_take, len_drop; lia).
    erewrite bind_ok.
    2:{ erewrite bind_ok; [|apply seek_start_src]. erewrite bind_ok.
        2:{ unfold z64_eocdl_try_from_reader.
            erewrite bind_ok; [|apply (read_exact_here 4 d (q - 24) (take 4 (drop (q - 24) d)) (drop 4 (drop (q - 24) d)));
              [now rewrite take_drop|easy]].
            destruct (from_le (take 4 (drop (q - 24) d)) =? ZIP64_EOCDL_SIGNATURE) eqn:Es; [exfalso|reflexivity].
            apply Hno; [lia|]. apply N.eqb_eq in Es. apply occurs_iff. rewrite len_to_le. change (N.of_nat 4) with 4.
            split; [lia|]. rewrite <- Es. symmetry. etransitivity; [|apply to_from_le].
            f_equal. clear - L4. unfold len in L4. lia. }
        reflexivity. }
    apply (directory_pos cfg (combined_from (eocdr_from eb)) false).
Qed.

Lemma file_classic cfg d p0 q eb comment y :
  locate d p0 = Ok q -> drop q d = eb ++ comment ++ y -> len eb = 18 ->
  len comment = e_file_comm_length (eocdr_from eb) ->
  (24 <= q -> ~ occurs (to_le 4 ZIP64_EOCDL_SIGNATURE) d (q - 24)) ->
  fst (file cfg (src d p0)) =
  fst (directory cfg (combined_from (eocdr_from eb)) false (zs_new comment EUtf8) (src d 0)).
Proof.
  intros Hq E L1 L2 Hno. rewrite (file_classic_rest cfg d p0 q eb _ Hq E L1 Hno). now rewrite take_app_exact.
Qed.

(** the end record at [q] with a ZIP64 locator in front of it *)
Lemma file_zip64_rest cfg d p0 q eb rest lb zb y1 y2 :
  locate d p0 = Ok q -> drop q d = eb ++ rest -> len eb = 18 ->
  24 <= q -> drop (q - 24) d = to_le 4 ZIP64_EOCDL_SIGNATURE ++ lb ++ y1 -> len lb = 16 ->
  zl_relative_offset (z64_eocdl_from lb) + 4 <= u64_max ->
  drop (zl_relative_offset (z64_eocdl_from lb) + 4) d = zb ++ y2 -> len zb = 52 ->
  fst (file cfg (src d p0)) =
  fst (directory cfg (combine (eocdr_from eb) (z64_eocdr_from zb)) true
         (zs_new (take (e_file_comm_length (eocdr_from eb)) rest) EUtf8) (src d 0)).
Proof.
  intros Hq E L1 Hq24 EL LL Hov EZ LZ. destruct (eocdr_locate_calm d p0 q Hq) as [p1 H1]. unfold file.
  rewrite (bind_ok _ _ _ _ _ H1). rewrite (bind_ok _ _ _ _ _ (seek_start_src q d p1)).
  rewrite (bind_ok _ _ _ _ _ (eocdr_from_reader_here d q _ _ E L1)).
  apply (drop_step 18) in E; [|easy].
  unfold read_string. erewrite bind_ok; [|erewrite bind_ok; [reflexivity|]; rewrite read_bytes_calm, E; reflexivity].
  change (ZIP64_EOCDL_LENGTH + SIGNATURE_LENGTH) with 24.
  replace (q <? 24) with false by lia.
  erewrite bind_ok.
  2:{ erewrite bind_ok; [|apply seek_start_src]. erewrite bind_ok.
      2:{ unfold z64_eocdl_try_from_reader.
          erewrite bind_ok; [|apply (read_exact_here 4 d (q - 24) _ _ EL); apply len_to_le].
          rewrite from_to_le4 by easy. rewrite N.eqb_refl. cbn [negb].
          apply (drop_step 4) in EL; [|apply len_to_le].
          erewrite bind_ok; [reflexivity|]. apply (read_exact_here 16 d _ _ _ EL LL). }
      cbv beta iota. erewrite bind_ok.
      2:{ unfold lift, uadd. change SIGNATURE_LENGTH with 4.
          replace (zl_relative_offset (z64_eocdl_from lb) + 4 <=? u64_max) with true by lia. reflexivity. }
      erewrite bind_ok; [|apply seek_start_src].
      erewrite bind_ok; [reflexivity|]. apply (z64_eocdr_from_reader_here d _ _ _ EZ LZ). }
  apply (directory_pos cfg (combine (eocdr_from eb) (z64_eocdr_from zb)) true).
Qed.

Lemma file_zip64 cfg d p0 q eb comment y lb zb y1 y2 :
  locate d p0 = Ok q -> drop q d = eb ++ comment ++ y -> len eb = 18 ->
  len comment = e_file_comm_length (eocdr_from eb) ->
  24 <= q -> drop (q - 24) d = to_le 4 ZIP64_EOCDL_SIGNATURE ++ lb ++ y1 -> len lb = 16 ->
  zl_relative_offset (z64_eocdl_from lb) + 4 <= u64_max ->
  drop (zl_relative_offset (z64_eocdl_from lb) + 4) d = zb ++ y2 -> len zb = 52 ->
  fst (file cfg (src d p0)) =
  fst (directory cfg (combine (eocdr_from eb) (z64_eocdr_from zb)) true (zs_new comment EUtf8) (src d 0)).
Proof.
  intros Hq E L1 L2 Hq24 EL LL Hov EZ LZ.
  rewrite (file_zip64_rest cfg d p0 q eb _ lb zb y1 y2 Hq E L1 Hq24 EL LL Hov EZ LZ). now rewrite take_app_exact.
Qed.

Lemma directory_here cfg c z k d l es y :
  cb_disk_number c = cb_disk_number_start_of_cd c -> cb_num_entries c = cb_num_entries_on_disk c ->
  cb_num_entries c = len l -> len l * entry_mem_size cfg <= isize_max ->
  drop (cb_offset c) d = cd_images l ++ y -> Forall ci_ok l -> Forall2 (fun i e => ci_view cfg i = Ok e) l es ->
  fst (directory cfg c z k (src d 0)) = Ok {| f_entries := es; f_zip64 := z; f_comment := k |}.
Proof.
  intros H1 H2 H3 Hc E Hok Hv. unfold directory.
  rewrite H1, N.eqb_refl, <- H2, N.eqb_refl. cbn [negb orb].
  rewrite (bind_ok _ _ _ _ _ (seek_start_src _ d 0)). rewrite H3.
  now rewrite (bind_ok _ _ _ _ _ (cd_here cfg d _ l es y E Hok Hv Hc)).
Qed.
