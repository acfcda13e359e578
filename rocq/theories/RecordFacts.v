(** What the writer records and puts down for an entry is what SpecWrite says. *)
From Verif Require Import Base BaseFacts Crc32 CrcFacts SpecFormat SpecCrc SpecArchive ZString ZDate Headers HeadersFacts
  ExtraField ExtraFieldFacts Entry IO Reader EntryReader Writer WriterFacts WholeFacts StreamFacts SpecWrite OpenFacts.
From Verif Require SpecUtf8.
Arguments N.add : simpl never.
Arguments N.sub : simpl never.
Arguments N.min : simpl never.
Arguments N.max : simpl never.
Ltac ands := repeat match goal with |- _ /\ _ => split end.

(** ** Unicode fields *)
Lemma existsb_none (mk : unicode_field -> extra_field) f l : (forall x, f x = true <-> exists u, x = mk u) ->
  existsb f l = false <-> none_of mk l.
Proof.
  intro Hf. unfold none_of. induction l as [|x l IH]; cbn [existsb]; [split; [constructor|easy]|].
  rewrite orb_false_iff, Forall_cons_iff, IH. split; intros [H1 H2]; (split; [|easy]).
  - intros u ->. assert (f (mk u) = true) by (apply Hf; eauto). congruence.
  - destruct (f x) eqn:E; [|easy]. apply Hf in E as [u ->]. now elim (H1 u).
Qed.
Lemma none_of_split (mk : unicode_field -> extra_field) f l : (forall x, f x = true <-> exists u, x = mk u) ->
  existsb f l = true -> exists a u b, l = a ++ mk u :: b /\ none_of mk a.
Proof.
  intro Hf. induction l as [|x l IH]; cbn [existsb]; [discriminate|]. intro H. destruct (f x) eqn:E.
  - apply Hf in E as [u ->]. exists [], u, l. split; [easy|constructor].
  - destruct (IH H) as (a & u & b & -> & N). exists (x :: a), u, b. split; [easy|]. constructor; [|easy].
    intros v ->. assert (f (mk v) = true) by (apply Hf; eauto). congruence.
Qed.
Lemma update_path_at a crc u : none_of XPath a -> forall l, update_path crc u (a ++ l) = a ++ update_path crc u l.
Proof.
  induction a as [|x a IH]; intros N l; [easy|]. inversion N; subst. cbn [app update_path].
  destruct x as [z|v|v|id sz c]; try (now rewrite IH). now elim (H1 v).
Qed.
Lemma update_comment_at a crc u : none_of XComment a -> forall l, update_comment crc u (a ++ l) = a ++ update_comment crc u l.
Proof.
  induction a as [|x a IH]; intros N l; [easy|]. inversion N; subst. cbn [app update_comment].
  destruct x as [z|v|v|id sz c]; try (now rewrite IH). now elim (H1 v).
Qed.
Lemma put_path_told basic text l : told XPath basic text l (put_path (crc32 basic) text l).
Proof.
  unfold put_path. rewrite crc32_is_spec.
  assert (Hf : forall x, is_xpath x = true <-> exists u, x = XPath u).
  { intros []; cbn; split; intro H; try discriminate; eauto; now destruct H. }
  destruct (existsb is_xpath l) eqn:E; cbv zeta.
  - destruct (none_of_split XPath is_xpath l Hf E) as (a & u & b & -> & N). rewrite update_path_at by easy.
    destruct u; cbn [update_path]; now constructor.
  - apply (existsb_none XPath is_xpath l Hf) in E. rewrite update_path_at by easy. cbn [update_path]. now constructor.
Qed.
Lemma put_comment_told basic text l : told XComment basic text l (put_comment (crc32 basic) text l).
Proof.
  unfold put_comment. rewrite crc32_is_spec.
  assert (Hf : forall x, is_xcomment x = true <-> exists u, x = XComment u).
  { intros []; cbn; split; intro H; try discriminate; eauto; now destruct H. }
  destruct (existsb is_xcomment l) eqn:E; cbv zeta.
  - destruct (none_of_split XComment is_xcomment l Hf E) as (a & u & b & -> & N). rewrite update_comment_at by easy.
    destruct u; cbn [update_comment]; now constructor.
  - apply (existsb_none XComment is_xcomment l Hf) in E. rewrite update_comment_at by easy. cbn [update_comment]. now constructor.
Qed.
Lemma no_alt_iff s : zs_utf8_no_alt s = true <-> plain_text s.
Proof. unfold zs_utf8_no_alt, plain_text. destruct (zs_enc s), (zs_alt s); split; intro H; try discriminate; try easy; destruct H; discriminate. Qed.
Lemma utf8_flag_iff e : utf8_flag e = true <-> plain_text (en_filename e) /\ plain_text (en_comment e).
Proof. unfold utf8_flag. rewrite andb_true_iff, !no_alt_iff. reflexivity. Qed.
Lemma basic_is_stored s : basic_bytes s = stored_bytes s. Proof. reflexivity. Qed.

Lemma is_utf8_yes x : is_utf8 x = true -> zs_enc x = EUtf8.
Proof. unfold is_utf8. now destruct (zs_enc x). Qed.
Lemma is_utf8_no x : is_utf8 x = false -> zs_enc x <> EUtf8.
Proof. unfold is_utf8. now destruct (zs_enc x). Qed.
Lemma nonempty_yes l : nonempty l = true -> l <> [].
Proof. now destruct l. Qed.
Lemma nonempty_no l : nonempty l = false -> l = [].
Proof. now destruct l. Qed.
Lemma unicode_texts e : exists ys, add_unicode_fields e = set_extra e ys /\
  texts (en_filename e) (en_comment e) (utf8_flag e) (en_extra e) ys.
Proof.
  unfold add_unicode_fields. destruct (utf8_flag e) eqn:F.
  - exists (en_extra e). split; [destruct e; reflexivity|]. apply utf8_flag_iff in F. now constructor.
  - eexists. split; [reflexivity|]. econstructor.
    + intro H. apply utf8_flag_iff in H. congruence.
    + instantiate (1 := if is_utf8 (en_filename e) && nonempty (zs_raw (en_filename e))
             then put_path (crc32 (basic_bytes (en_filename e))) (zs_raw (en_filename e)) (en_extra e) else en_extra e).
      destruct (is_utf8 (en_filename e)) eqn:U, (nonempty (zs_raw (en_filename e))) eqn:N; cbn [andb].
      * apply spelled_text; [now apply is_utf8_yes|now apply nonempty_yes|apply put_path_told].
      * apply spelled_not. right. now apply nonempty_no.
      * apply spelled_not. left. now apply is_utf8_no.
      * apply spelled_not. left. now apply is_utf8_no.
    + cbv zeta. set (ms := if is_utf8 (en_filename e) && _ then _ else _).
      destruct (is_utf8 (en_comment e)) eqn:U, (nonempty (zs_raw (en_comment e))) eqn:N; cbn [andb].
      * apply spelled_text; [now apply is_utf8_yes|now apply nonempty_yes|apply put_comment_told].
      * apply spelled_not. right. now apply nonempty_no.
      * apply spelled_not. left. now apply is_utf8_no.
      * apply spelled_not. left. now apply is_utf8_no.
Qed.

(** ZIP64 fields stay where they are *)
Definition is_mk (mk : unicode_field -> extra_field) : Prop := mk = XPath \/ mk = XComment.
Lemma mk_plain mk basic text : is_mk mk -> plain_field (mk (UV1 (crc32_spec basic) text)).
Proof. intros [-> | ->]; cbn; rewrite <- crc32_is_spec; exact (crc32_bound basic). Qed.
Lemma mk_not_zip64 mk u z : is_mk mk -> XZip64 z <> mk u.
Proof. intros [-> | ->]; discriminate. Qed.

Lemma app_mid_cases {A} (b zz a p q : list A) x : b ++ zz ++ a = p ++ x :: q ->
  (exists b2, b = p ++ x :: b2 /\ q = b2 ++ zz ++ a) \/
  (exists z1 z2, zz = z1 ++ x :: z2 /\ p = b ++ z1 /\ q = z2 ++ a) \/
  (exists a1, a = a1 ++ x :: q /\ p = b ++ zz ++ a1).
Proof.
  revert p. induction b as [|y b IH]; intros p H.
  - revert p H. induction zz as [|y zz IH]; intros p H.
    + right. right. exists p. cbn in *. now split.
    + destruct p as [|y' p].
      * cbn in H. injection H as -> H. right. left. exists [], zz. subst q. now split.
      * cbn in H. injection H as -> H. destruct (IH p H) as [(b2 & H1 & H2)|[(z1 & z2 & -> & -> & ->)|(a1 & -> & ->)]].
        { now destruct p. }
        { right. left. exists (y' :: z1), z2. now split. }
        { right. right. exists a1. now split. }
  - destruct p as [|y' p].
    + cbn in H. injection H as -> H. left. exists b. now split.
    + cbn in H. injection H as -> H. destruct (IH p H) as [(b2 & -> & ->)|[(z1 & z2 & -> & -> & ->)|(a1 & -> & ->)]].
      * left. exists b2. now split.
      * right. left. exists z1, z2. now split.
      * right. right. exists a1. now split.
Qed.

Definition all_zip64 (l : list extra_field) : Prop := Forall (fun x => exists z, x = XZip64 z) l.
Lemma told_split mk basic text b zz a ys : is_mk mk -> all_zip64 zz ->
  Forall plain_field b -> Forall plain_field a ->
  told mk basic text (b ++ zz ++ a) ys ->
  exists b' a', ys = b' ++ zz ++ a' /\ Forall plain_field b' /\ Forall plain_field a'.
Proof.
  intros Hm Hz Pb Pa H. remember (b ++ zz ++ a) as l eqn:E. pose proof (mk_plain mk basic text Hm) as PM. destruct H as [xs N|p crc old q N|p v d q N].
  - subst xs. exists b, (a ++ [mk (UV1 (crc32_spec basic) text)]). rewrite <- !app_assoc. split; [easy|]. split; [easy|].
    apply Forall_app. split; [easy|]. now constructor.
  - symmetry in E. apply app_mid_cases in E as [(b2 & -> & ->)|[(z1 & z2 & -> & -> & ->)|(a1 & -> & ->)]].
    + exists (p ++ mk (UV1 (crc32_spec basic) text) :: b2), a. rewrite <- app_assoc. split; [easy|]. split; [|easy].
      apply Forall_app in Pb as [P1 P2]. inversion P2; subst. apply Forall_app. split; [easy|]. now constructor.
    + exfalso. unfold all_zip64 in Hz. apply Forall_app in Hz as [_ Hz]. apply Forall_cons_iff in Hz as [[z Hx] _].
      exact (mk_not_zip64 _ _ _ Hm (eq_sym Hx)).
    + exists b, (a1 ++ mk (UV1 (crc32_spec basic) text) :: q). rewrite <- !app_assoc. split; [easy|]. split; [easy|].
      apply Forall_app in Pa as [P1 P2]. inversion P2; subst. apply Forall_app. split; [easy|]. now constructor.
  - rewrite E. exists b, a. auto.
Qed.
Lemma spelled_split mk s b zz a ys : is_mk mk -> all_zip64 zz ->
  Forall plain_field b -> Forall plain_field a -> spelled mk s (b ++ zz ++ a) ys ->
  exists b' a', ys = b' ++ zz ++ a' /\ Forall plain_field b' /\ Forall plain_field a'.
Proof.
  intros Hm Hz Pb Pa H. remember (b ++ zz ++ a) as l eqn:E. destruct H as [xs ys' _ _ T|xs _]; subst.
  - exact (told_split mk _ _ b zz a _ Hm Hz Pb Pa T).
  - exists b, a. auto.
Qed.
Lemma texts_split n c f xs zz ys : all_zip64 zz -> Forall plain_field xs -> texts n c f (xs ++ zz) ys ->
  exists b a, ys = b ++ zz ++ a /\ Forall plain_field b /\ Forall plain_field a.
Proof.
  intros Hz P H. remember (xs ++ zz) as l0 eqn:E. destruct H as [l _ _|l ms ls _ S1 S2]; subst.
  - exists xs, []. now rewrite app_nil_r.
  - rewrite <- (app_nil_r zz) in S1. apply spelled_split in S1 as (b1 & a1 & -> & P1 & P2); [|now left|easy|easy|constructor].
    now apply spelled_split in S2; [|right| | |].
Qed.

(** ** Extra-field images *)
Lemma plain_size_ok x : plain_field x -> field_size_ok x.
Proof. destruct x; cbn; tauto. Qed.
Lemma fields_bytes_image l : Forall field_wt l -> Forall field_size_ok l -> fields_count_bytes l < 65536 ->
  fields_bytes l = spec_extras l /\ len (spec_extras l) = fields_count_bytes l.
Proof.
  intros W S C. destruct (fields_as_bytes_small l W S C) as (E & L & _). unfold fields_bytes. rewrite E, spec_extras_eq. auto.
Qed.
Lemma as_u32_small n : n < 4294967296 -> as_u32 n = n.
Proof. intro. unfold as_u32. apply N.mod_small. exact H. Qed.

(** ** Version *)
Lemma needs_version e : needs e (as_needed_to_extract e).
Proof.
  unfold as_needed_to_extract, needs, entry_dir, zs_as_str, names_directory.
  change (match en_compression e with Deflate => 20 | Deflate64 => 21 | Bz => 46 | Lzma => 63 | _ => 10 end)
    with (method_version (en_compression e)).
  destruct (zs_enc (en_filename e)); cbn [rbind].
  2:{ right. split; [|easy]. now intros [? _]. }
  unfold ends_with_slash. destruct (rev (zs_raw (en_filename e))) as [|b r] eqn:R.
  - right. split; [|easy]. intros [_ [p Hp]]. rewrite Hp, rev_app_distr in R. discriminate.
  - destruct (N.eqb_spec (b2n b) 0x2F) as [E|E].
    + left. split; [|easy]. split; [easy|]. exists (rev r). change 0x2F with (b2n x2f) in E. apply b2n_inj in E. subst b.
      apply (f_equal (@rev _)) in R. rewrite rev_involutive in R. exact R.
    + right. split; [|easy]. intros [_ [p Hp]]. rewrite Hp, rev_app_distr in R. cbn in R. injection R as <- <-. now apply E.
Qed.
Lemma needs_same e e' v : en_filename e = en_filename e' -> en_compression e = en_compression e' -> needs e v -> needs e' v.
Proof. unfold needs. now intros -> ->. Qed.

(** the bytes of a recorded central directory entry *)
Definition ce_bytes (c : cd_entry) : bytes :=
  to_le 4 CDH_SIGNATURE ++ cdr_as_slice (ce_header c) ++ basic_bytes (en_filename (ce_entry c)) ++
  fields_bytes (en_extra (ce_entry c)) ++ basic_bytes (en_comment (ce_entry c)).

(** sizes that can be told from the placeholder when only the offset is in the ZIP64 field *)
Definition sizes_clear (it : item) : Prop :=
  in64 it = false -> off64 it = true -> i_usize it <> 0xFFFFFFFF /\ i_csize it <> 0xFFFFFFFF.

Lemma over_eq n : over n = is_over n. Proof. reflexivity. Qed.
Lemma not_over n : over n = false -> n < 0x100000000.
Proof. unfold over. change NON_ZIP64_MAX_SIZE with 0xFFFFFFFF. lia. Qed.
Lemma is_over_false n : is_over n = false -> n < 0x100000000.
Proof. unfold is_over. lia. Qed.

Lemma image_ok l : Forall field_wt l -> Forall field_size_ok l -> fields_count_bytes l < 65536 ->
  fields_bytes l = spec_extras l /\ fields_count_bytes l = len (spec_extras l).
Proof. intros W S C. destruct (fields_bytes_image l W S C) as [H1 H2]. auto. Qed.

Definition zip64_ok (x : extra_field) : Prop := match x with XZip64 z => zip64_wt z /\ zf_disk z = None | _ => False end.
Lemma sandwich_ok b zz a : Forall plain_field b -> Forall zip64_ok zz -> Forall plain_field a ->
  Forall field_wt (b ++ zz ++ a) /\ Forall field_size_ok (b ++ zz ++ a).
Proof.
  intros Pb Pz Pa. rewrite !Forall_app. repeat split;
    (eapply Forall_impl; [|eassumption]); cbn; intros x H; try (now apply plain_field_wt); try (now apply plain_size_ok); destruct x; cbn in *; tauto.
Qed.

Lemma head_bytes_eq h e : head_bytes h e =
  local_header (l_version h)
    (flag_word (gp_encrypted (l_flags h)) (gp_data_descriptor (l_flags h)) (gp_filename_unicode (l_flags h)))
    (l_compression h) (l_mod_time h) (l_mod_date h) (l_crc h) (l_compressed_size h) (l_uncompressed_size h)
    (l_file_name_length h) (l_extra_field_length h) ++ basic_bytes (en_filename e) ++ fields_bytes (en_extra e).
Proof.
  unfold head_bytes, head_writes. cbn [concat]. rewrite app_nil_r. rewrite <- lfh_layout, <- app_assoc. reflexivity.
Qed.
Lemma ce_bytes_eq c : ce_bytes c =
  let h := ce_header c in
  central_header (c_v_made_by h) (c_v_needed h)
    (flag_word (gp_encrypted (c_flags h)) (gp_data_descriptor (c_flags h)) (gp_filename_unicode (c_flags h)))
    (c_compression h) (c_mod_time h) (c_mod_date h) (c_crc h) (c_compressed_size h) (c_uncompressed_size h)
    (c_file_name_length h) (c_extra_field_length h) (c_file_comment_length h) (c_disk_start h)
    (c_inter_attr h) (c_exter_attr h) (c_lh_offset h) ++ basic_bytes (en_filename (ce_entry c)) ++
    fields_bytes (en_extra (ce_entry c)) ++ basic_bytes (en_comment (ce_entry c)).
Proof. cbv zeta. unfold ce_bytes. rewrite <- cdr_layout, <- app_assoc. reflexivity. Qed.

Lemma flag_word_small a b c : flag_word a b c < 0x10000.
Proof. unfold flag_word. destruct a, b, c; reflexivity. Qed.
Lemma needs_small e v : needs e v -> v < 0x10000.
Proof. intros [[_ ->]|[_ ->]]; destruct (en_compression e); reflexivity. Qed.

(** ** Whole entries *)
(** [e] with the CRC and size the writer found *)
Definition measured (e : zentry) (u c : N) : zentry := set_crc32 (set_uncompressed_size e u) c.
Lemma measured_self e : measured e (en_uncompressed_size e) (en_crc32 e) = e.
Proof. destruct e; reflexivity. Qed.
Definition whole_item (fn : bool) (e : zentry) (u c : N) (d : bytes) (off : N) : item :=
  {| i_stream := false; i_no64 := fn; i_entry := e; i_usize := u; i_crc := c; i_data := d; i_off := off |}.

Lemma wh_big_item fn e u c d off : wh_big (measured e u c) d = i_big (whole_item fn e u c d off).
Proof. reflexivity. Qed.

Lemma wh_e3_facts fn e u c d off :
  let it := whole_item fn e u c d off in
  let e3 := wh_e3 (measured e u c) d off in
  en_filename e3 = en_filename e /\ en_comment e3 = en_comment e /\ en_compression e3 = en_compression e /\
  en_date e3 = en_date e /\ en_crc32 e3 = c /\ en_iattr e3 = en_iattr e /\ en_eattr e3 = en_eattr e /\
  en_uncompressed_size e3 = (if i_big it then 0xFFFFFFFF else u) /\
  en_compressed_size e3 = (if i_big it then 0xFFFFFFFF else len d) /\
  utf8_flag (wh_e2 (measured e u c) d off) = utf8_flag e /\
  texts (en_filename e) (en_comment e) (utf8_flag e) (en_extra e ++ local_zip64 it) (en_extra e3).
Proof.
  cbv zeta. unfold wh_e3. destruct (unicode_texts (wh_e2 (measured e u c) d off)) as (ys & -> & T).
  revert T. unfold wh_e2, local_zip64. cbv zeta.
  change (wh_big (set_compressed_size (measured e u c) (len d)) d) with (i_big (whole_item fn e u c d off)).
  cbn [i_stream whole_item]. destruct (i_big (whole_item fn e u c d off)); intro T.
  - repeat match goal with |- _ /\ _ => split end; try reflexivity. exact T.
  - repeat match goal with |- _ /\ _ => split end; try reflexivity. rewrite app_nil_r. exact T.
Qed.

Lemma whole_laid fn e u c d off :
  let it := whole_item fn e u c d off in
  let e' := measured e u c in
  entry_fine e -> u < 0x10000000000000000 -> c < 0x100000000 -> len d < 0x10000000000000000 -> off < 0x10000000000000000 ->
  wh_refused e' d off = None -> fields_count_bytes (en_extra (wh_e4 e' d off)) < 65536 ->
  exists a version flag lx, laid_out it a version flag lx /\
    head_bytes (wh_lfh e' d off) (wh_e3 e' d off) = local_image it version flag lx /\
    ce_bytes (wh_cd e' d off) = member_record a /\ (sizes_clear it -> member_ok a).
Proof.
  cbv zeta. intros (Wt & Pl) Hu Hc Hd Ho R C4. set (it := whole_item fn e u c d off). set (e' := measured e u c) in *.
  pose proof (wh_e3_facts fn e u c d off) as F. cbv zeta in F. fold it e' in F.
  set (e3 := wh_e3 e' d off) in *. destruct F as (Fn & Fc & Fm & Fd & Fr & Fi & Fe & Fu & Fs & Ff & T).
  assert (ZZ : Forall zip64_ok (local_zip64 it)).
  { unfold local_zip64, it. cbn [i_stream whole_item]. destruct (i_big _); [|constructor]. constructor; [|constructor].
    cbn. unfold zip64_wt. cbn. destruct (is_over off); cbn; ands; try easy. }
  assert (AZ : all_zip64 (local_zip64 it)).
  { eapply Forall_impl; [|exact ZZ]. intros [z| | |] H; try easy. now exists z. }
  destruct (texts_split _ _ _ _ _ _ AZ Pl T) as (b & a & E & Pb & Pa).
  assert (R3 : fields_count_bytes (en_extra e3) < 65536 /\ len (basic_bytes (en_filename e3)) < 65536 /\ len (basic_bytes (en_comment e3)) < 65536).
  { unfold wh_refused in R. cbv zeta in R. fold e3 in R.
    destruct (N.ltb_spec (fields_count_bytes (en_extra e3)) 65536); [|discriminate]. cbn [negb] in R.
    destruct (N.ltb_spec (len (basic_bytes (en_filename e3))) 65536); [|discriminate]. cbn [negb] in R.
    destruct (N.ltb_spec (len (basic_bytes (en_comment e3))) 65536); [|discriminate]. auto. }
  destruct R3 as (R1 & R2 & R3).
  destruct (sandwich_ok b (local_zip64 it) a Pb ZZ Pa) as [W1 W2]. rewrite <- E in W1, W2.
  destruct (image_ok _ W1 W2 R1) as [I1 I2].
  set (lt := late e' d off).
  assert (LT : lt = negb (in64 it) && off64 it) by reflexivity.
  set (ma := {| a_made_by := 0x033F; a_needed := as_needed_to_extract e3; a_flags := flag_word false false (utf8_flag e);
     a_method := en_compression e; a_time := zd_time (en_date e); a_date := zd_date (en_date e); a_crc := c;
     a_usize := u; a_csize := len d; a_offset := off; a_disk := 0;
     a_u64 := in64 it; a_c64 := in64 it; a_o64 := off64 it; a_d64 := false;
     a_iattr := en_iattr e; a_eattr := en_eattr e; a_name := i_name it; a_comment := i_comment it;
     a_before := b ++ (if lt then a else []); a_after := if lt then [] else a |}).
  assert (X4 : en_extra (wh_e4 e' d off) = a_extras ma).
  { unfold wh_e4. cbv zeta. fold e3 lt. unfold a_extras, a_zip64, ma. cbn [a_before a_after a_u64 a_c64 a_o64 a_d64 a_usize a_csize a_offset a_disk].
    destruct lt; [cbn [en_extra set_extra]|]; rewrite E; symmetry in LT.
    - apply andb_true_iff in LT as [L1 L2]. apply negb_true_iff in L1. rewrite L1, L2. cbn [orb when].
      assert (Z : local_zip64 it = []) by (unfold local_zip64; cbn [i_stream it whole_item]; change (i_big it) with (in64 it); now rewrite L1).
      rewrite Z. reflexivity.
    - rewrite app_nil_r. f_equal. f_equal. unfold local_zip64. cbn [i_stream it whole_item]. fold it. change (i_big it) with (in64 it).
      change (is_over (i_off it)) with (off64 it).
      destruct (in64 it) eqn:L1; [cbn [orb when]; unfold zip64_extra; cbn; now destruct (off64 it)|].
      cbn [negb andb] in LT. rewrite LT. reflexivity. }
  assert (Z4 : Forall zip64_ok (a_zip64 ma)).
  { unfold a_zip64, ma. cbn [a_before a_after a_u64 a_c64 a_o64 a_d64 a_usize a_csize a_offset a_disk].
    destruct (in64 it), (off64 it); cbn [orb when]; repeat constructor; cbn; try easy. }
  assert (PB : Forall plain_field (a_before ma) /\ Forall plain_field (a_after ma)).
  { unfold ma. cbn [a_before a_after]. rewrite Forall_app. destruct lt; auto. }
  destruct PB as [PB PA].
  destruct (sandwich_ok _ _ _ PB Z4 PA) as [W3 W4]. fold (a_extras ma) in W3, W4. rewrite <- X4 in W3, W4.
  destruct (image_ok _ W3 W4 C4) as [I3 I4]. rewrite X4 in I3, I4.
  assert (F4 : en_filename (wh_e4 e' d off) = en_filename e /\ en_comment (wh_e4 e' d off) = en_comment e /\ en_crc32 (wh_e4 e' d off) = c /\
               en_iattr (wh_e4 e' d off) = en_iattr e /\ en_eattr (wh_e4 e' d off) = en_eattr e).
  { unfold wh_e4. cbv zeta. fold e3 lt. destruct lt; cbn; auto. }
  destruct F4 as (G1 & G2 & G3 & G4 & G5).
  assert (S32 : forall v, as_u32 (if i_big it then 0xFFFFFFFF else v) = (if i_big it then 0xFFFFFFFF else as_u32 v)) by (intro; now destruct (i_big it)).
  assert (SU : (if i_big it then 0xFFFFFFFF else as_u32 u) = (if i_big it then 0xFFFFFFFF else u)).
  { destruct (i_big it) eqn:BG; [easy|]. apply as_u32_small. unfold i_big in BG. apply orb_false_iff in BG as [B1 _]. now apply is_over_false in B1. }
  assert (SC : (if i_big it then 0xFFFFFFFF else as_u32 (len d)) = (if i_big it then 0xFFFFFFFF else len d)).
  { destruct (i_big it) eqn:BG; [easy|]. apply as_u32_small. unfold i_big in BG. apply orb_false_iff in BG as [_ B1]. now apply is_over_false in B1. }
  exists ma, (as_needed_to_extract e3), (utf8_flag e), (en_extra e3).
  assert (ND : needs e (as_needed_to_extract e3)) by (apply (needs_same e3); [easy|easy|apply needs_version]).
  split; [|split; [|split]].
  - constructor; try reflexivity; try assumption; [exists b, a; rewrite <- LT; auto|].
    change (i_name it) with (basic_bytes (en_filename e)). change (i_comment it) with (basic_bytes (en_comment e)).
    rewrite <- I2, <- I4, <- X4. rewrite Fn in R2. rewrite Fc in R3. auto.
  - rewrite head_bytes_eq. unfold wh_lfh. cbv zeta. fold e3. unfold make_lfh. cbn [l_version l_flags l_compression l_mod_time l_mod_date l_crc
      l_compressed_size l_uncompressed_size l_file_name_length l_extra_field_length flags_of gp_encrypted gp_data_descriptor gp_filename_unicode].
    unfold local_image. cbv zeta. cbn [i_stream it whole_item i_entry i_crc]. fold it.
    rewrite Fn, Fm, Fd, Fr, Fu, Fs, Ff, !S32, SU, SC, I1, I2. reflexivity.
  - rewrite ce_bytes_eq. cbv zeta. unfold wh_cd. cbv zeta. cbn [ce_header ce_entry]. unfold make_cdr.
    cbn [c_v_made_by c_v_needed c_flags c_compression c_mod_time c_mod_date c_crc c_compressed_size c_uncompressed_size
      c_file_name_length c_extra_field_length c_file_comment_length c_disk_start c_inter_attr c_exter_attr c_lh_offset].
    rewrite X4, G1, G2, G3, G4, G5, I3, I4. unfold wh_lfh. cbv zeta. fold e3. unfold make_lfh. cbn [l_version l_flags l_compression l_mod_time l_mod_date l_crc
      l_compressed_size l_uncompressed_size l_file_name_length l_extra_field_length flags_of gp_encrypted gp_data_descriptor gp_filename_unicode].
    rewrite Fn, Fm, Fd, Fu, Fs, Ff, !S32, SU, SC. unfold member_record.
    unfold ma. cbn [a_made_by a_needed a_flags a_method a_time a_date a_crc a_usize a_csize a_offset a_disk a_u64 a_c64 a_o64 a_d64 a_iattr a_eattr a_name a_comment].
    change (in64 it) with (i_big it). unfold kept.
    replace (wh_off off) with (if off64 it then 0xFFFFFFFF else off); [reflexivity|].
    unfold wh_off. change (over off) with (off64 it). destruct (off64 it) eqn:OV; [reflexivity|].
    symmetry. apply as_u32_small. now apply is_over_false in OV.
  - intro SZ. destruct Wt as (D1 & D2 & D3 & _ & _ & D6 & D7).
    unfold member_ok. split; [reflexivity|].
    split; [exact (needs_small _ _ ND)|]. split; [apply flag_word_small|]. split; [exact D2|]. split; [exact D1|].
    split; [exact Hc|]. split; [exact D6|]. split; [exact D7|].
    unfold fits. cbn [ma a_u64 a_c64 a_o64 a_usize a_csize a_offset a_disk a_d64].
    split. { destruct (in64 it) eqn:BG; [easy|]. change (in64 it) with (i_big it) in BG. unfold i_big in BG. apply orb_false_iff in BG as [B1 _]. now apply is_over_false in B1. }
    split. { destruct (in64 it) eqn:BG; [easy|]. change (in64 it) with (i_big it) in BG. unfold i_big in BG. apply orb_false_iff in BG as [_ B1]. now apply is_over_false in B1. }
    split. { destruct (off64 it) eqn:BG; [easy|]. now apply is_over_false in BG. }
    split; [reflexivity|].
    split. { intros Z I. apply (SZ I). unfold a_zip64, ma in Z. cbn [a_u64 a_c64 a_o64 a_d64] in Z. rewrite I in Z. destruct (off64 it); [easy|]. now elim Z. }
    split. { intros Z I. apply (SZ I). unfold a_zip64, ma in Z. cbn [a_u64 a_c64 a_o64 a_d64] in Z. rewrite I in Z. destruct (off64 it); [easy|]. now elim Z. }
    split. { change (a_name ma) with (basic_bytes (en_filename e)). rewrite <- Fn. exact R2. }
    split. { change (a_comment ma) with (basic_bytes (en_comment e)). rewrite <- Fc. exact R3. }
    split. { rewrite <- I4, <- X4. exact C4. }
    split; [exact PB|exact PA].
Qed.

(** ** Stream entries *)
Definition stream_item (fn : bool) (e : zentry) (u c : N) (z : bytes) (off : N) : item :=
  {| i_stream := true; i_no64 := fn; i_entry := e; i_usize := u; i_crc := c; i_data := z; i_off := off |}.

Lemma put_zip64_at u c o b z a : Forall plain_field b ->
  put_zip64 u c o (b ++ XZip64 z :: a) =
  b ++ XZip64 {| zf_uncompressed := Some u; zf_compressed := Some c; zf_offset := Some o; zf_disk := zf_disk z |} :: a.
Proof.
  intro P. unfold put_zip64.
  assert (G : get_zip64_extra_field (b ++ XZip64 z :: a) = Some z).
  { induction P as [|x b Hx _ IH]; [easy|]. destruct x; [easy|..]; exact IH. }
  rewrite G. clear G. induction P as [|x b Hx _ IH]; [easy|]. destruct x; [easy|..]; cbn [app update_zip64]; now rewrite IH.
Qed.

Lemma so_e3_facts fn e u c z off :
  let it := stream_item fn e u c z off in
  let e3 := so_e3 fn e in
  en_filename e3 = en_filename e /\ en_comment e3 = en_comment e /\ en_compression e3 = en_compression e /\
  en_date e3 = en_date e /\ en_crc32 e3 = en_crc32 e /\ en_iattr e3 = en_iattr e /\ en_eattr e3 = en_eattr e /\
  en_uncompressed_size e3 = en_uncompressed_size e /\ utf8_flag (so_e2 fn e) = utf8_flag e /\
  texts (en_filename e) (en_comment e) (utf8_flag e) (en_extra e ++ local_zip64 it) (en_extra e3).
Proof.
  cbv zeta. unfold so_e3. destruct (unicode_texts (so_e2 fn e)) as (ys & -> & T).
  revert T. unfold so_e2, local_zip64. cbn [i_stream i_no64 i_entry stream_item]. destruct fn; intro T.
  - ands; try reflexivity. rewrite app_nil_r. exact T.
  - ands; try reflexivity. exact T.
Qed.

(** what the writer knows of the entry when it is closed *)
Definition sw_usize (pre : bool) (e : zentry) (content : bytes) : N := if pre then en_uncompressed_size e else len content.
Definition sw_crc (pre : bool) (e : zentry) (content : bytes) : N := if pre then en_crc32 e else crc32_spec content.

Lemma stream_laid {cd} pre fn e off doff enc0 content (enc : option (est cd)) z :
  let u := sw_usize pre e content in
  let c := sw_crc pre e content in
  let it := stream_item fn e u c z off in
  let sw := fed (opened pre fn e off doff enc0) content enc in
  entry_fine e -> len content < 0x10000000000000000 -> len z < 0x10000000000000000 -> off < 0x10000000000000000 ->
  fn && so_big e = false -> so_refused fn e = None -> fn && sc_big sw (len z) = false ->
  fields_count_bytes (en_extra (sc_e2 sw (len z))) < 65536 -> len (basic_bytes (en_comment (sw_entry sw))) < 65536 ->
  exists a version flag lx, laid_out it a version flag lx /\
    head_bytes (so_lfh fn e) (so_e3 fn e) = local_image it version flag lx /\
    concat (sc_descriptor sw (len z)) = descriptor_image it /\
    ce_bytes (sc_cd sw (len z)) = member_record a /\ member_ok a.
Proof.
  cbv zeta. intros (Wt & Pl) Hcn Hz Ho SB R BG C2 CM.
  set (u := sw_usize pre e content). set (c := sw_crc pre e content). set (it := stream_item fn e u c z off).
  set (sw := fed (opened pre fn e off doff enc0) content enc) in *.
  pose proof (so_e3_facts fn e u c z off) as F. cbv zeta in F. fold it in F.
  set (e3 := so_e3 fn e) in *. destruct F as (Fn & Fc & Fm & Fd & Fr & Fi & Fe & Fu & Ff & T).
  assert (Wt' := Wt). destruct Wt' as (D1 & D2 & D3 & D4 & D5 & D6 & D7).
  assert (Hu : u < 0x10000000000000000) by (unfold u, sw_usize; now destruct pre).
  assert (Hc : c < 0x100000000).
  { unfold c, sw_crc. destruct pre; [easy|]. rewrite <- crc32_is_spec. exact (crc32_bound content). }
  assert (ZZ : Forall zip64_ok (local_zip64 it)).
  { unfold local_zip64, it. cbn [i_stream i_no64 stream_item]. destruct fn; [constructor|]. constructor; [|constructor].
    cbn. unfold zip64_wt. cbn. ands; try easy. }
  assert (AZ : all_zip64 (local_zip64 it)).
  { eapply Forall_impl; [|exact ZZ]. intros [q| | |] H; try easy. now exists q. }
  destruct (texts_split _ _ _ _ _ _ AZ Pl T) as (b & a & E & Pb & Pa).
  assert (R3 : fields_count_bytes (en_extra e3) < 65536 /\ len (basic_bytes (en_filename e3)) < 65536).
  { unfold so_refused in R. cbv zeta in R. fold e3 in R.
    destruct (N.ltb_spec (fields_count_bytes (en_extra e3)) 65536); [|discriminate]. cbn [negb] in R.
    destruct (N.ltb_spec (len (basic_bytes (en_filename e3))) 65536); [|discriminate]. auto. }
  destruct R3 as (R1 & R2).
  destruct (sandwich_ok b (local_zip64 it) a Pb ZZ Pa) as [W1 W2]. rewrite <- E in W1, W2.
  destruct (image_ok _ W1 W2 R1) as [I1 I2].
  assert (E1 : sc_e1 sw = measured e3 u c).
  { unfold sc_e1, sw, fed, sw_advance, opened. cbn [sw_pre sw_entry sw_hasher sw_uoffset]. fold e3. unfold u, c, sw_usize, sw_crc, measured.
    destruct pre; [rewrite <- Fu, <- Fr; destruct e3; reflexivity|]. rewrite <- crc32_is_spec. unfold crc32. reflexivity. }
  assert (FN : sw_force_no sw = fn) by reflexivity. assert (SE : sw_entry sw = e3) by reflexivity.
  assert (SO : sw_lfh_offset sw = off) by reflexivity. assert (SL : sw_lfh sw = so_lfh fn e) by reflexivity.
  set (ma := {| a_made_by := 0x033F; a_needed := as_needed_to_extract e3; a_flags := flag_word false true (utf8_flag e);
     a_method := en_compression e; a_time := zd_time (en_date e); a_date := zd_date (en_date e); a_crc := c;
     a_usize := put_usize it; a_csize := put_csize it; a_offset := off; a_disk := 0;
     a_u64 := in64 it; a_c64 := in64 it; a_o64 := off64 it; a_d64 := false;
     a_iattr := en_iattr e; a_eattr := en_eattr e; a_name := i_name it; a_comment := i_comment it;
     a_before := b; a_after := a |}).
  assert (LT : negb (in64 it) && off64 it = false) by (unfold in64, off64; cbn; now destruct fn).
  assert (X2 : en_extra (sc_e2 sw (len z)) = a_extras ma).
  { unfold sc_e2. cbv zeta. rewrite E1, FN, SO. unfold a_extras, a_zip64, ma. cbn [a_before a_after a_u64 a_c64 a_o64 a_d64 a_usize a_csize a_offset a_disk].
    unfold in64, off64, put_usize, put_csize, i_swapped. cbn [i_stream i_no64 it stream_item i_usize]. fold it.
    destruct fn; cbn [negb andb orb when]; cbn [en_extra set_extra measured set_crc32 set_uncompressed_size]; rewrite E.
    - unfold local_zip64. cbn [i_stream i_no64 it stream_item]. reflexivity.
    - unfold local_zip64. cbn [i_stream i_no64 it stream_item]. unfold zip64_extra. cbn [app]. rewrite put_zip64_at by easy. reflexivity. }
  assert (Z4 : Forall zip64_ok (a_zip64 ma)).
  { unfold a_zip64, ma. cbn [a_before a_after a_u64 a_c64 a_o64 a_d64 a_usize a_csize a_offset a_disk].
    unfold in64, off64, put_usize, put_csize, i_swapped. cbn [i_stream i_no64 it stream_item i_usize]. fold it. unfold i_csize. cbn [i_data it stream_item].
    destruct fn; cbn [orb when negb andb]; repeat constructor; cbn; try easy. }
  destruct (sandwich_ok b _ a Pb Z4 Pa) as [W3 W4]. change (b ++ a_zip64 ma ++ a) with (a_extras ma) in W3, W4. rewrite <- X2 in W3, W4.
  destruct (image_ok _ W3 W4 C2) as [I3 I4]. rewrite X2 in I3, I4.
  assert (F2 : en_filename (sc_e2 sw (len z)) = en_filename e /\ en_comment (sc_e2 sw (len z)) = en_comment e /\ en_crc32 (sc_e2 sw (len z)) = c /\
               en_iattr (sc_e2 sw (len z)) = en_iattr e /\ en_eattr (sc_e2 sw (len z)) = en_eattr e).
  { unfold sc_e2. cbv zeta. rewrite E1, FN. destruct fn; cbn; auto. }
  destruct F2 as (G1 & G2 & G3 & G4 & G5).
  assert (SM : fn = true -> u < 0x100000000 /\ len z < 0x100000000 /\ off < 0x100000000).
  { intros ->. cbn [andb] in BG. unfold sc_big in BG. rewrite E1, SO in BG. cbn [en_uncompressed_size measured set_crc32 set_uncompressed_size] in BG.
    apply orb_false_iff in BG as [BG B3]. apply orb_false_iff in BG as [B1 B2]. ands; now apply not_over. }
  assert (SM0 : fn = true -> en_uncompressed_size e < 0x100000000 /\ en_compressed_size e < 0x100000000).
  { intros ->. cbn [andb] in SB. unfold so_big in SB. apply orb_false_iff in SB as [B1 B2]. split; now apply not_over. }
  assert (S1 : sc_first sw = if fn then put_csize it else 0xFFFFFFFF).
  { unfold sc_first. rewrite FN, E1. destruct fn; [|reflexivity]. cbn. apply as_u32_small. now apply SM. }
  assert (S2 : sc_second sw (len z) = if fn then put_usize it else 0xFFFFFFFF).
  { unfold sc_second. rewrite FN. destruct fn; [|reflexivity]. cbn. apply as_u32_small. now apply SM. }
  assert (S3 : sc_off sw = if fn then off else 0xFFFFFFFF).
  { unfold sc_off. rewrite FN, SO. destruct fn; [|reflexivity]. apply as_u32_small. now apply SM. }
  assert (ND : needs e (as_needed_to_extract e3)) by (apply (needs_same e3); [easy|easy|apply needs_version]).
  exists ma, (as_needed_to_extract e3), (utf8_flag e), (en_extra e3).
  split; [|split; [|split; [|split]]].
  - constructor; try reflexivity; try assumption; [exists b, a; rewrite LT; rewrite app_nil_r; auto|].
    change (i_name it) with (basic_bytes (en_filename e)). change (i_comment it) with (basic_bytes (en_comment e)).
    rewrite <- I2, <- I4, <- X2. rewrite Fn in R2. rewrite SE, Fc in CM. auto.
  - rewrite head_bytes_eq. unfold so_lfh. fold e3. unfold make_lfh. cbn [l_version l_flags l_compression l_mod_time l_mod_date l_crc
      l_compressed_size l_uncompressed_size l_file_name_length l_extra_field_length flags_of gp_encrypted gp_data_descriptor gp_filename_unicode].
    unfold local_image. cbv zeta. cbn [i_stream i_no64 it stream_item i_entry i_crc]. fold it.
    rewrite Fn, Fm, Fd, Fr, Ff, I1, I2.
    destruct fn; cbn [negb]; [|reflexivity]. destruct (SM0 eq_refl) as [H1 H2]. now rewrite !as_u32_small by easy.
  - unfold sc_descriptor, descriptor_image, data_descriptor32, record. cbn [i_stream i_no64 it stream_item concat map fst snd i_crc].
    rewrite S1, S2, E1, !le_to_le. reflexivity.
  - rewrite ce_bytes_eq. cbv zeta. unfold sc_cd. cbv zeta. cbn [ce_header ce_entry]. unfold make_cdr.
    cbn [c_v_made_by c_v_needed c_flags c_compression c_mod_time c_mod_date c_crc c_compressed_size c_uncompressed_size
      c_file_name_length c_extra_field_length c_file_comment_length c_disk_start c_inter_attr c_exter_attr c_lh_offset].
    rewrite X2, G1, G2, G3, G4, G5, I3, I4, SL, S1, S2, S3. unfold so_lfh. fold e3. unfold make_lfh. cbn [l_version l_flags l_compression l_mod_time l_mod_date l_crc
      l_compressed_size l_uncompressed_size l_file_name_length l_extra_field_length flags_of gp_encrypted gp_data_descriptor gp_filename_unicode].
    rewrite Fn, Fm, Fd, Ff. unfold member_record.
    unfold ma. cbn [a_made_by a_needed a_flags a_method a_time a_date a_crc a_usize a_csize a_offset a_disk a_u64 a_c64 a_o64 a_d64 a_iattr a_eattr a_name a_comment].
    unfold kept, in64, off64. cbn [i_stream i_no64 it stream_item]. destruct fn; reflexivity.
  - unfold member_ok. split; [reflexivity|].
    split; [exact (needs_small _ _ ND)|]. split; [apply flag_word_small|]. split; [exact D2|]. split; [exact D1|].
    split; [exact Hc|]. split; [exact D6|]. split; [exact D7|].
    unfold fits. cbn [ma a_u64 a_c64 a_o64 a_usize a_csize a_offset a_disk a_d64].
    unfold in64, off64, put_usize, put_csize, i_swapped. cbn [i_stream i_no64 it stream_item i_usize]. fold it. unfold i_csize. cbn [i_data it stream_item].
    split. { destruct fn; cbn [andb negb]; [now apply SM|easy]. }
    split. { destruct fn; cbn [andb negb]; [now apply SM|easy]. }
    split. { destruct fn; cbn [andb negb]; [now apply SM|easy]. }
    split; [reflexivity|].
    assert (ZN : a_zip64 ma <> [] -> negb fn = false -> False).
    { intros Z I. unfold a_zip64, ma in Z. cbn [a_u64 a_c64 a_o64 a_d64] in Z. unfold in64, off64 in Z. cbn [i_stream i_no64 it stream_item] in Z. rewrite I in Z. now elim Z. }
    split. { intros Z I. now elim (ZN Z). }
    split. { intros Z I. now elim (ZN Z). }
    split. { change (a_name ma) with (basic_bytes (en_filename e)). rewrite <- Fn. exact R2. }
    split. { change (a_comment ma) with (basic_bytes (en_comment e)). rewrite <- Fc. exact CM. }
    split. { rewrite <- I4, <- X2. exact C2. }
    split; [exact Pb|exact Pa].
Qed.
