(** Proofs: every error and panic of opening and of reading the next header. *)
From Verif Require Import Base BaseFacts SpecFormat SpecCrc SpecUtf8 SpecArchive SpecRead SpecStrict SpecExact Crc32 CrcFacts Utf8 Utf8Facts ZString ZDate
  Headers HeadersFacts ExtraField ExtraFieldFacts Entry IO IOFacts Locator LocatorFacts Reader ReaderFacts OpenFacts TameFacts LfhFacts EntryReader EntryProofs
  ReadProofs StreamReader StrictProofs SpecAccept AcceptProofs ExactProofs ExactTop SpecTrouble.
Arguments N.mul : simpl never.
Arguments N.add : simpl never.
Arguments N.sub : simpl never.
Arguments N.min : simpl never.

(** ** Extra fields *)
Definition unfit {A} (P : trouble -> Prop) (r : res A) : Prop :=
  match r with Ok _ => True | Err e => P (Gives e) | Panic p => P (Panics p) end.
Lemma complete_dec f : complete f \/ ~ complete f.
Proof.
  unfold complete. destruct f as [id p]. cbn [fst snd].
  destruct (N.eq_dec id 0x6375) as [E|E]; [|destruct (N.eq_dec id 0x7075) as [E'|E']; [|left; tauto]].
  all: destruct p as [|v p]; [right; tauto|]; destruct (N.eq_dec (b2n v) 1) as [V|V]; [|left; tauto];
    destruct (N.le_gt_cases 5 (len (v :: p))) as [L|L]; [left; tauto|right; intros H; specialize (H ltac:(tauto) V); lia].
Qed.
Lemma unicode_works e p : match p with [] => False | v :: _ => b2n v = 1 -> 5 <= len p end -> exists u, unicode_from_bytes e (len p) p = Ok u.
Proof.
  intros C. destruct (unicode_from_bytes_total e p) as [(w & F & _)|F]; [intros ->; exact C|eauto|].
  exfalso. destruct p as [|v p]; [exact C|]. cbn [unicode_from_bytes] in F. destruct (N.eqb_spec (b2n v) 1) as [V|V].
  - specialize (C V). replace (len (v :: p) <? 5) with false in F by (symmetry; apply N.ltb_ge; exact C).
    unfold index in F. change (1 <=? 5) with true in F. replace (5 <=? len (v :: p)) with true in F by (symmetry; apply N.leb_le; exact C).
    rewrite N.leb_refl in F. cbn [andb rbind] in F. discriminate F.
  - unfold index in F. rewrite len_cons, N.leb_refl in F. replace (1 <=? 1 + len p) with true in F by (symmetry; apply N.leb_le; lia).
    cbn [andb rbind] in F. discriminate F.
Qed.
Lemma unicode_outcome e p : match p with [] => False | v :: _ => b2n v = 1 -> 5 <= len p end /\ (exists u, unicode_from_bytes e (len p) p = Ok u) \/
    ~ match p with [] => False | v :: _ => b2n v = 1 -> 5 <= len p end /\ unicode_from_bytes e (len p) p = Err e.
Proof.
  destruct p as [|v p]; [right; split; [tauto|reflexivity]|].
  destruct (N.eq_dec (b2n v) 1) as [V|V]; [destruct (N.le_gt_cases 5 (len (v :: p))) as [L|L]|].
  - left. split; [intros _; exact L|]. apply unicode_works. intros _. exact L.
  - right. split; [intros H; specialize (H V); lia|]. cbn [unicode_from_bytes].
    apply N.eqb_eq in V. rewrite V. now replace (len (v :: p) <? 5) with true by (symmetry; apply N.ltb_lt; exact L).
  - left. split; [tauto|]. apply unicode_works. tauto.
Qed.
Lemma field_outcome us cs id p :
  (complete (id, p) /\ exists x, extra_field_from_bytes id (len p) p us cs = Ok x) \/
  (~ complete (id, p) /\ extra_field_from_bytes id (len p) p us cs = failed (incomplete (id, p))).
Proof.
  unfold extra_field_from_bytes, complete, incomplete. change ID_ZIP64 with 1. change ID_UCOMMENT with 0x6375. change ID_UPATH with 0x7075. cbn [fst snd].
  destruct (N.eqb_spec id 1) as [->|N1]; [left; split; [intros [B|B]; discriminate|eauto]|].
  pose proof (fun e => unicode_outcome e p) as K.
  destruct (N.eqb_spec id 0x6375) as [->|N2].
  { destruct (K InfoZipUnicodeCommentFieldIncomplete) as [[C [u U]]|[C U]]; rewrite U; [left; split; [intros _; exact C|cbn [rbind]; eauto]|right; split; [intros H; apply C, H; tauto|reflexivity]]. }
  destruct (N.eqb_spec id 0x7075) as [->|N3].
  { destruct (K InfoZipUnicodePathFieldIncomplete) as [[C [u U]]|[C U]]; rewrite U; [left; split; [intros _; exact C|cbn [rbind]; eauto]|right; split; [intros H; apply C, H; tauto|reflexivity]]. }
  left. split; [tauto|eauto].
Qed.
Lemma complete_is us cs f : complete f <-> exists x, field_is us cs f x.
Proof.
  destruct f as [id p]. destruct (field_outcome us cs id p) as [[C [x X]]|[C X]].
  - split; [intros _; exists x; now apply field_taken|tauto].
  - split; [tauto|]. intros [x E]. apply field_taken in E. rewrite X in E. discriminate E.
Qed.
Lemma completes_are us cs l : Forall complete l <-> exists xs, Forall2 (field_is us cs) l xs.
Proof.
  induction l as [|f l IH]; [split; [exists []; constructor|constructor]|]. split.
  - intros C. inversion C as [|? ? C1 C2]; subst. apply (complete_is us cs) in C1 as [x X]. apply IH in C2 as [xs Xs]. exists (x :: xs). now constructor.
  - intros [xs F]. inversion F as [|? x ? ys X Y]; subst. constructor; [apply (complete_is us cs); eauto|apply IH; eauto].
Qed.
Lemma nums22 l : 4 <= len l -> nums [2; 2]%nat l = Some ([from_le (take 2 l); from_le (take 2 (drop 2 l))], drop 4 l).
Proof.
  intros L. apply nums_step. change (N.of_nat 2) with 2. split; [lia|]. split; [reflexivity|]. apply nums_step. change (N.of_nat 2) with 2.
  rewrite len_drop. split; [lia|]. split; [reflexivity|]. cbn [nums]. now rewrite drop_drop.
Qed.
Lemma slice_take {A} a b (l : list A) : slice a b l = take (b - a) (drop a l).
Proof. reflexivity. Qed.
Lemma from_le_2 l : from_le (take 2 l) < 65536.
Proof. eapply N.lt_le_trans; [apply from_le_bound|]. change 65536 with (256 ^ 2). apply N.pow_le_mono_r; [lia|]. rewrite len_take. lia. Qed.
Lemma parse_outcome cfg us cs data : forall f cursor, len (drop cursor data) < N.of_nat f -> cursor <= len data ->
  unfit (fields_fail cfg (drop cursor data)) (parse_loop cfg f data cursor us cs).
Proof.
  induction f as [|f IH]; intros c Lf Lc; [lia|]. cbn [parse_loop]. rewrite len_drop in Lf.
  destruct (N.ltb_spec (c + 4) (len data)) as [G|G]; [|exact I].
  unfold index. replace ((c <=? c + 2) && (c + 2 <=? len data)) with true by (symmetry; apply Bool.andb_true_iff; split; apply N.leb_le; lia).
  replace ((c + 2 <=? c + 4) && (c + 4 <=? len data)) with true by (symmetry; apply Bool.andb_true_iff; split; apply N.leb_le; lia). cbn [rbind].
  rewrite !slice_take. replace (c + 2 - c) with 2 by lia. replace (c + 4 - (c + 2)) with 2 by lia.
  set (l := drop c data). assert (Ll : len l = len data - c) by apply len_drop.
  assert (E2 : drop (c + 2) data = drop 2 l) by (unfold l; now rewrite drop_drop).
  rewrite E2. set (id := from_le (take 2 l)). set (n := from_le (take 2 (drop 2 l))).
  assert (Nm : nums [2; 2]%nat l = Some ([id; n], drop 4 l)) by (apply nums22; lia).
  assert (G4 : 4 < len l) by lia.
  assert (Ln : n < 65536) by apply from_le_2.
  assert (L4 : len (drop 4 l) = len data - c - 4) by (rewrite len_drop; lia).
  destruct (N.ltb_spec (len data) (c + 4 + n)) as [S|S].
  - assert (F : fields_fail cfg l (if overflow_checks cfg then Panics POverflow
                       else Gives (InvalidExtraFieldHeader n (0x10000000000000000 + len (drop 4 l) - (4 + n))))).
    { eapply ff_claims; [lia|exact Nm|lia]. }
    unfold usub at 1. replace (c <=? len data) with true by (symmetry; apply N.leb_le; lia). cbn [rbind].
    unfold usub at 1. destruct (N.leb_spec 8 (len data - c)) as [E8|E8].
    + cbn [rbind]. unfold usub. replace (n <=? len data - c - 8) with false by (symmetry; apply N.leb_gt; lia).
      destruct (overflow_checks cfg); [exact F|]. cbn [rbind unfit]. 
      replace (as_u64 _) with (0x10000000000000000 + len (drop 4 l) - (4 + n)); [exact F|].
      unfold as_u64. rewrite N.mod_small; unfold usize_max; lia.
    + destruct (overflow_checks cfg); [exact F|]. cbn [rbind]. unfold as_u64 at 1. rewrite N.mod_small by (unfold usize_max; lia).
      unfold usub. replace (n <=? _) with true by (symmetry; apply N.leb_le; unfold usize_max; lia). cbn [rbind unfit].
      replace (_ - n) with (0x10000000000000000 + len (drop 4 l) - (4 + n)); [exact F|]. unfold usize_max. lia.
  - replace ((c + 4 <=? c + 4 + n) && (c + 4 + n <=? len data)) with true by (symmetry; apply Bool.andb_true_iff; split; apply N.leb_le; lia). cbn [rbind].
    replace (c + 4 + n - (c + 4)) with n by lia. replace (drop (c + 4) data) with (drop 4 l) by (unfold l; now rewrite drop_drop).
    assert (Tx : text n (drop 4 l) = Some (take n (drop 4 l), drop (c + 4 + n) data)).
    { unfold text. replace (n <=? len (drop 4 l)) with true by (symmetry; apply N.leb_le; lia). 
      change (Some (upto n (drop 4 l), past n (drop 4 l)) = Some (take n (drop 4 l), drop (c + 4 + n) data)). rewrite upto_take, past_drop.
      unfold l. now rewrite !drop_drop. }
    set (p := take n (drop 4 l)) in *. assert (Lp : n = len p) by (unfold p; rewrite len_take; lia). rewrite Lp at 1.
    destruct (field_outcome us cs id p) as [[C [x X]]|[C X]]; rewrite X; cbn [rbind failed].
    + specialize (IH (c + 4 + n)). rewrite len_drop in IH. specialize (IH ltac:(lia) ltac:(lia)).
      destruct (parse_loop _ _ _ _ _ _) as [r|e|e]; cbn [rbind unfit] in *; [exact I|eapply ff_later; eassumption..].
    + unfold incomplete. cbn [rbind unfit]. eapply ff_incomplete; eassumption.
Qed.
Lemma fields_outcome cfg us cs x : unfit (fields_fail cfg x) (parse_extra_fields cfg x us cs).
Proof.
  pose proof (parse_outcome cfg us cs x (S (length x)) 0) as H. rewrite drop_0 in H. apply H; unfold len; lia.
Qed.
(** the failures exclude each other and success *)
Lemma fields_fail_single cfg l t : fields_fail cfg l t -> forall t', fields_fail cfg l t' -> t = t'.
Proof.
  assert (K : forall n m p r, text n m = Some (p, r) -> ~ len m < n).
  { intros n m p r T. unfold text in T. destruct (N.leb_spec n (len m)); [lia|discriminate]. }
  induction 1 as [l id n m L Nm C|l id n m p r L Nm T C|l id n m p r t L Nm T C F IH]; intros t' F';
    destruct F' as [l id' n' m' L' Nm' C'|l id' n' m' p' r' L' Nm' T' C'|l id' n' m' p' r' t' L' Nm' T' C' F'];
    rewrite Nm in Nm'; injection Nm' as <- <- <-; try reflexivity; try (apply K in T; contradiction); try (apply K in T'; contradiction);
    rewrite T in T'; injection T' as <- <-; try contradiction; first [reflexivity|now apply IH].
Qed.
Lemma fields_fail_not cfg l t : fields_fail cfg l t -> forall xs, some_fields l xs -> ~ Forall complete xs.
Proof.
  induction 1 as [l id n m L Nm C|l id n m p r L Nm T C|l id n m p r t L Nm T C F IH]; intros xs S A;
    destruct S as [l S|l id' n' m' p' r' xs L' Nm' T' S]; try lia; rewrite Nm in Nm'; injection Nm' as <- <- <-.
  - unfold text in T'. destruct (N.leb_spec n (len m)); [lia|discriminate].
  - rewrite T in T'. injection T' as <- <-. now inversion A.
  - rewrite T in T'. injection T' as <- <-. inversion A. eapply IH; eassumption.
Qed.

(** ** Records *)
Lemma exact_split n d p :
  (n <= len (drop p d) /\ read_exact n (src d p) = (Ok (take n (drop p d)), src d (p + n))) \/
  (len (drop p d) < n /\ exists s', read_exact n (src d p) = (Err (UpstreamReadError UnexpectedEof), s')).
Proof.
  rewrite read_exact_calm. unfold exact_result, avail. cbn [s_data s_pos src].
  destruct (N.leb_spec n (len (drop p d))) as [L|L]; [left|right]; (split; [exact L|]); [f_equal; f_equal; lia|eauto].
Qed.
Lemma value_upto n l : value (upto n l) = from_le (take n l).
Proof. now rewrite StrictProofs.value_from, upto_take. Qed.
Lemma method_outcome v : match method_of v with Some c => compression_try_from v = Ok c | None => compression_try_from v = Err (CompressionNotSupported v) end.
Proof.
  destruct (method_of v) as [c|] eqn:M; [now apply method_taken|].
  assert (K : forall c, compression_try_from v <> Ok c) by (intros c C; apply method_taken in C; congruence).
  destruct v as [|v]; [now elim (K _ eq_refl)|]. do 7 (destruct v as [v|v|]; try reflexivity; try now elim (K _ eq_refl)).
Qed.
Lemma record_result cfg d p made needed flags method time date crc cs us nl xl cl disk ia ea off m :
  nums row17 (drop p d) = Some ([0x02014b50; made; needed; flags; method; time; date; crc; cs; us; nl; xl; cl; disk; ia; ea; off], m) ->
  unfit (fun t => failed t = cd_view cfg {| c_v_made_by := made; c_v_needed := needed; c_flags := gp_from flags; c_compression := method; c_mod_time := time;
     c_mod_date := date; c_crc := crc; c_compressed_size := cs; c_uncompressed_size := us; c_file_name_length := nl;
     c_extra_field_length := xl; c_file_comment_length := cl; c_disk_start := disk; c_inter_attr := ia;
     c_exter_attr := ea; c_lh_offset := off |} (take nl m) (take xl (drop nl m)) (take cl (drop xl (drop nl m)))) (fst (cd_record cfg (src d p))).
Proof.
  intros N. set (h := Build_cdr _ _ _ _ _ _ _ _ _ _ _ _ _ _ _ _). apply nums_fs in N as (_ & E & W). unfold row17 in E, W. cbn [List.combine] in E, W.
  set (body := record [(2%nat, made); (2%nat, needed); (2%nat, flags); (2%nat, method); (2%nat, time); (2%nat, date); (4%nat, crc); (4%nat, cs); (4%nat, us);
    (2%nat, nl); (2%nat, xl); (2%nat, cl); (2%nat, disk); (2%nat, ia); (4%nat, ea); (4%nat, off)]).
  assert (H : cdr_from body = h).
  { apart_widths. unfold body, record. cbn [map concat fst snd]. rewrite !le_to_le. apply cdr_from_fields; assumption. }
  assert (L : len body = 42) by reflexivity.
  assert (E4 : drop p d = to_le 4 CDH_SIGNATURE ++ body ++ m).
  { rewrite E. unfold body, record. cbn [map concat fst snd]. rewrite !le_to_le. now rewrite <- !app_assoc. }
  clearbody body. clear E W. pose proof (drop_step 4 _ _ _ _ E4 (len_to_le 4 _)) as E5. pose proof (drop_step 42 _ _ _ _ E5 L) as E6.
  set (q := p + 4 + 42) in *. unfold cd_record.
  rewrite (bind_ok _ _ _ _ _ (assert_signature_here CDH_SIGNATURE d p _ ltac:(reflexivity) E4)).
  rewrite (bind_ok _ _ _ _ _ (cdr_from_reader_here d _ _ _ E5 L)). rewrite H. fold q.
  rewrite (bind_ok _ _ _ _ _ (read_bytes_calm (c_file_name_length h) d q)). change (c_file_name_length h) with nl. rewrite E6.
  unfold cd_view. change (c_compression h) with method. rewrite bind_lift. destruct (compression_try_from method) as [c|x|x]; cbn [rbind]; [|reflexivity..].
  set (q1 := q + _). assert (D1 : drop q1 d = drop nl m) by (unfold q1; now rewrite <- E6, drop_read).
  rewrite (bind_ok _ _ _ _ _ (read_bytes_calm (c_extra_field_length h) d q1)). change (c_extra_field_length h) with xl. rewrite D1.
  rewrite bind_lift. destruct (parse_extra_fields _ _ _ _) as [xs|x|x]; cbn [rbind]; [|reflexivity..].
  match goal with |- unfit _ (fst (bind (read_bytes ?k) _ (src d ?z))) => rewrite (bind_ok _ _ _ _ _ (read_bytes_calm k d z)) end.
  destruct (get_combined_sizes _ _ _). exact I.
Qed.
Lemma view_outcome cfg h name x cm : unfit (fun t => method_of (c_compression h) = None /\ t = Gives (CompressionNotSupported (c_compression h)) \/
  exists c, method_of (c_compression h) = Some c /\ fields_fail cfg x t) (cd_view cfg h name x cm).
Proof.
  unfold cd_view. pose proof (method_outcome (c_compression h)) as M. destruct (method_of _) as [c|] eqn:Mo; rewrite M; cbn [rbind]; [|left; auto].
  pose proof (fields_outcome cfg (c_uncompressed_size h) (c_compressed_size h) x) as F. destruct (parse_extra_fields _ _ _ _); cbn [rbind unfit] in *; eauto.
Qed.
Lemma record_outcome cfg d p : unfit (row_fails cfg (past p d)) (fst (cd_record cfg (src d p))).
Proof.
  rewrite past_drop. set (l := drop p d).
  destruct (exact_split 4 d p) as [[L4 X4]|[L4 [s1 X4]]]; fold l in L4, X4.
  2: { unfold cd_record, assert_signature. rewrite (bind_err _ _ _ _ _ (bind_err _ _ _ _ _ X4)). now apply rf_nothing. }
  destruct (N.eq_dec (from_le (take 4 l)) 0x02014b50) as [Sg|Sg].
  2: { unfold cd_record, assert_signature. unfold bind at 1. rewrite (bind_ok _ _ _ _ _ X4). cbv zeta. apply N.eqb_neq in Sg. change CDH_SIGNATURE with 0x02014b50.
       rewrite Sg. apply N.eqb_neq in Sg. cbn [fail unfit fst]. rewrite <- value_upto. apply rf_signature; [exact L4|]. now rewrite value_upto. }
  destruct (exact_split 42 d (p + 4)) as [[L42 X]|[L42 [s1 X]]]; rewrite len_drop in L42.
  2: { unfold cd_record, assert_signature. unfold bind at 1. rewrite (bind_ok _ _ _ _ _ X4). cbv zeta. rewrite Sg. change CDH_SIGNATURE with 0x02014b50. rewrite N.eqb_refl.
       unfold ret at 1. unfold cdr_from_reader. rewrite (bind_err _ _ _ _ _ (bind_err _ _ _ _ _ X)). 
       apply rf_cut; [now rewrite value_upto|]. unfold l in *. rewrite len_drop in *. lia. }
  clear X. destruct (nums_total row17 l) as (vs & m & N); [change (widths_of row17) with 46; unfold l in *; rewrite len_drop in *; lia|].
  pose proof (proj1 (nums_fs _ _ _ _ N)) as Ln. change (length row17) with 17%nat in Ln.
  do 17 (destruct vs as [|? vs]; [discriminate Ln|apply eq_add_S in Ln]). destruct vs; [|discriminate Ln].
  pose proof (nums_head _ _ _ _ _ _ N) as Hd. change (N.of_nat 4) with 4 in Hd. rewrite Sg in Hd. subst n.
  pose proof (record_result cfg _ _ _ _ _ _ _ _ _ _ _ _ _ _ _ _ _ _ _ N) as R.
  destruct (fst (cd_record cfg (src d p))) as [e|e|e]; [exact I|..]; cbn [unfit failed] in *;
    match type of R with _ = cd_view cfg ?h ?a ?b ?c => pose proof (view_outcome cfg h a b c) as V end; rewrite <- R in V; cbn [unfit c_compression] in V;
    (destruct V as [[V1 V2]|(c & V1 & V2)]; [rewrite V2; eapply rf_method; eassumption|]);
    eapply rf_fields; [exact N|exact V1|rewrite upto_take, past_drop; exact V2|exact N|exact V1|rewrite upto_take, past_drop; exact V2].
Qed.
Lemma row_good_tells r : row_good r <-> exists e, tells r e.
Proof.
  unfold row_good. rewrite (completes_are (w_usize r) (w_csize r)). split.
  - intros [M [xs F]]. destruct (method_of (w_method r)) as [c|] eqn:Mo; [|now elim M]. destruct (placed r) as [[us cs] off] eqn:P.
    exists {| st_entry := {| en_filename := detect_filename (w_name r) (N.testbit (w_flags r) 11) xs; en_compression := c; en_level := LDefault; en_crc32 := w_crc r;
      en_uncompressed_size := us; en_compressed_size := cs; en_attr_compat := Unix; en_date := {| zd_date := w_date r; zd_time := w_time r |};
      en_iattr := w_iattr r; en_eattr := w_eattr r; en_extra := xs; en_comment := detect_comment (w_comment r) (N.testbit (w_flags r) 11) xs;
      en_data_descriptor := N.testbit (w_flags r) 3 |}; st_file_offset := off; st_header_size := 30 + w_nlen r + w_xlen r |}.
    unfold tells. cbn [st_entry en_extra en_filename en_comment en_compression en_level en_crc32 en_uncompressed_size en_compressed_size st_file_offset
      en_attr_compat en_date en_iattr en_eattr en_data_descriptor st_header_size].
    split; [exact F|]. split; [apply detect_filename_spec|]. split; [apply detect_comment_spec|]. split; [exact Mo|]. rewrite P. now repeat split.
  - intros (e & F & _ & _ & M & _). split; [congruence|eauto].
Qed.
Lemma nums_short ks l vs m : nums ks l = Some (vs, m) -> widths_of ks <= len l.
Proof. intros H. apply nums_long in H. lia. Qed.
Lemma row_fail_single cfg l t t' : row_fails cfg l t -> row_fails cfg l t' -> t = t'.
Proof.
  assert (K : forall v vs m, nums row17 l = Some (v :: vs, m) -> 46 <= len l /\ value (upto 4 l) = v).
  { intros v vs m H. split; [apply nums_short in H; exact H|]. apply nums_head in H. now rewrite value_upto. }
  unfold row17 in K. intros A B.
  destruct A as [A|A A'|A A'|made needed flags method time date crc cs us nl xl cl disk ia ea off m Na A|made needed flags method time date crc cs us nl xl cl disk ia ea off m c t Na A A'];
    destruct B as [B|B B'|B B'|made' needed' flags' method' time' date' crc' cs' us' nl' xl' cl' disk' ia' ea' off' m' Nb B|
    made' needed' flags' method' time' date' crc' cs' us' nl' xl' cl' disk' ia' ea' off' m' c' t' Nb B B'];
    try (pose proof (K _ _ _ Na) as [Ka Va]); try (pose proof (K _ _ _ Nb) as [Kb Vb]); try reflexivity; try lia; try congruence;
    rewrite Na in Nb; injection Nb as <- <- <- <- <- <- <- <- <- <- <- <- <- <- <- <- <-; try congruence.
  eapply fields_fail_single; eassumption.
Qed.
Lemma row_fail_not cfg l t r m : row_fails cfg l t -> read_row l r m -> ~ row_good r.
Proof.
  intros A R [M C]. destruct R as [made needed flags method time date crc cs us nl xl cl disk ia ea off m xs Nm S]. cbn [w_method w_fields] in *.
  pose proof (nums_short _ _ _ _ Nm) as L. change (widths_of _) with 46 in L. pose proof (nums_head _ _ _ _ _ _ Nm) as V. change (N.of_nat 4) with 4 in V.
  rewrite <- value_upto in V. destruct A as [A|A B|A B|made' needed' flags' method' time' date' crc' cs' us' nl' xl' cl' disk' ia' ea' off' m' Nm' B|
    made' needed' flags' method' time' date' crc' cs' us' nl' xl' cl' disk' ia' ea' off' m' c t Nm' B A]; try lia; try congruence;
    rewrite Nm in Nm'; injection Nm' as <- <- <- <- <- <- <- <- <- <- <- <- <- <- <- <- <-.
  eapply fields_fail_not; eassumption.
Qed.
Lemma rows_fail_single cfg l n t : rows_fail cfg l n t -> forall t', rows_fail cfg l n t' -> t = t'.
Proof.
  induction 1 as [l n t P A|l n r m t P R G _ IH]; intros t' B; destruct B as [l n t' P' A'|l n r' m' t' P' R' G' B].
  - eapply row_fail_single; eassumption.
  - now elim (row_fail_not _ _ _ _ _ A R').
  - now elim (row_fail_not _ _ _ _ _ A' R).
  - destruct (row_unique _ _ _ R _ _ R') as [<- <-]. now apply IH.
Qed.
Lemma rows_fail_not cfg l n t : rows_fail cfg l n t -> forall rs, rows l rs -> len rs = n -> ~ Forall row_good rs.
Proof.
  induction 1 as [l n t P A|l n r m t P R G _ IH]; intros rs S L F; destruct S as [l|l r' m' rs R' S];
    try (change (len (@nil row)) with 0 in L; lia); inversion F; subst.
  - now elim (row_fail_not _ _ _ _ _ A R').
  - destruct (row_unique _ _ _ R _ _ R') as [<- <-]. rewrite len_cons in IH. eapply IH; [exact S|lia|assumption].
Qed.
Lemma loop_outcome' cfg d f : forall n p, len (drop p d) < N.of_nat f -> unfit (rows_fail cfg (past p d) n) (fst (cd_loop cfg f n (src d p))).
Proof.
  induction f as [|f IH]; intros n p L; [lia|]. cbn [cd_loop]. destruct (N.eqb_spec n 0) as [Z|Z]; [exact I|].
  pose proof (record_outcome cfg d p) as R. destruct (cd_record cfg (src d p)) as [[e|e|e] s'] eqn:E; cbn [fst unfit] in R.
  - apply record_reads in E as E'. destruct E' as (r & p' & -> & Rr & T). rewrite (bind_ok _ _ _ _ _ E). apply row_long in Rr as Lr. rewrite !past_drop in Lr.
    specialize (IH (n - 1) p' ltac:(lia)). destruct (cd_loop cfg f (n - 1) (src d p')) as [[es|x|x] s2] eqn:El; cbn [fst unfit] in IH.
    + now rewrite (bind_ok _ _ _ _ _ El).
    + rewrite (bind_err _ _ _ _ _ El). cbn [fst unfit]. eapply rs_later; [lia|exact Rr|apply row_good_tells; eauto|exact IH].
    + rewrite (bind_panic _ _ _ _ _ El). cbn [fst unfit]. eapply rs_later; [lia|exact Rr|apply row_good_tells; eauto|exact IH].
  - rewrite (bind_err _ _ _ _ _ E). apply rs_here; [lia|exact R].
  - rewrite (bind_panic _ _ _ _ _ E). apply rs_here; [lia|exact R].
Qed.

(** ** The end of the archive *)
(** windows of 2048 bytes, each overlapping the one before by four; the 33rd is the last *)
Lemma reach_loop d : forall f k, k <= 32 -> (0 < f)%nat -> 33 <= k + N.of_nat f ->
  (forall p, occurs EOCDR_SIG d p -> p <= len d - (2048 + 2044 * k) + 2044) ->
  match fst (eocdr_loop f (len d) (len d - (2048 + 2044 * k)) (src d (len d - (2048 + 2044 * k)))) with
  | Ok q => 4 <= q /\ len d <= q - 4 + reach
  | Err e => e = UnableToLocateEOCDR /\ forall p, occurs EOCDR_SIG d p -> p + reach < len d
  | Panic _ => False
  end.
Proof.
  induction f as [|f IH]; intros k K F0 F Hno; [lia|]. set (position := len d - (2048 + 2044 * k)) in *. cbn [eocdr_loop].
  unfold bind at 1. rewrite fill_calm. fold EOCDR_SIG.
  pose proof (reverse_search_spec (take 2048 (drop position d)) EOCDR_SIG ltac:(easy)) as R. change (len EOCDR_SIG) with 4 in R. unfold reach.
  destruct (reverse_search_buffer _ _) as [i|].
  - destruct R as (R1 & _ & _). cbn [ret fst]. lia.
  - assert (Hno' : forall p, occurs EOCDR_SIG d p -> p < position).
    { intros p Hp. destruct (N.le_gt_cases position p) as [Hle|]; [exfalso|easy].
      apply (R (p - position)). apply window_occurs; [reflexivity|easy|easy|]. specialize (Hno p Hp). change (len EOCDR_SIG) with 4. lia. }
    change EOCDR_LOWER_BOUND with 65557. change (BUFFER_SIZE - SIGNATURE_LENGTH) with 2044.
    destruct ((position =? 0) || (position <=? len d - 65557)) eqn:E.
    + cbn [fail fst]. split; [reflexivity|]. intros p Hp. specialize (Hno' p Hp). lia.
    + unfold bind at 1, seek_start, set_pos. cbn [s_data s_pos s_sched src].
      change {| s_data := d; s_pos := position - 2044; s_sched := [] |} with (src d (position - 2044)).
      replace (position - 2044) with (len d - (2048 + 2044 * (k + 1))) by lia. apply IH; [lia|lia|lia|].
      intros p Hp. specialize (Hno' p Hp). lia.
Qed.
Lemma locate_reach d p0 :
  (exists a, locate d p0 = Ok (a + 4) /\ last_end_at d a) \/
  (locate d p0 = Err UnableToLocateEOCDR /\ forall q, found_at (le 4 0x06054b50) d q -> q + reach < len d).
Proof.
  assert (H : match locate d p0 with Ok q => 4 <= q /\ len d <= q - 4 + reach
    | Err e => e = UnableToLocateEOCDR /\ forall p, occurs EOCDR_SIG d p -> p + reach < len d | Panic _ => False end).
  { unfold locate, eocdr_locate, bind, seek_end, seek_start, set_pos; cbn [s_data s_pos s_sched src].
    change BUFFER_SIZE with 2048.
    change {| s_data := d; s_pos := len d - 2048; s_sched := [] |} with (src d (len d - 2048)).
    pose proof (reach_loop d 64 0 ltac:(lia) ltac:(lia) ltac:(lia)) as H. replace (len d - (2048 + 2044 * 0)) with (len d - 2048) in H by lia. apply H.
    intros p Hp. apply occurs_iff in Hp as [L _]. change (len EOCDR_SIG) with 4 in L. lia. }
  destruct (locate_spec d p0) as [(q & E & Q4 & O & Last)|(E & _)]; rewrite E in H.
  - left. exists (q - 4). replace (q - 4 + 4) with q by lia. split; [exact E|]. split; [exact O|]. split; [exact Last|]. apply H.
  - right. split; [exact E|]. apply H.
Qed.
(** ** Opening *)
Definition opening_gives (cfg : config) (d : bytes) (r : res zfile) : Prop :=
  match r with
  | Ok f => exists x rs, says d x rs /\ reports x rs f /\ end_good cfg d x /\ n_count x * entry_mem_size cfg <= isize_max
  | Err e => open_fails cfg d (Gives e)
  | Panic p => open_fails cfg d (Panics p)
  end.
Lemma directory_outcome cfg d c z k p x :
  cb_disk_number c = cb_disk_number_start_of_cd c -> cb_num_entries c = cb_num_entries_on_disk c -> n_count x = cb_num_entries c -> n_offset x = cb_offset c ->
  end_good cfg d x -> z = match n_locator x with Some _ => true | None => false end -> k = zs_new (n_comment x) EUtf8 ->
  opening_gives cfg d (fst (ReaderFacts.directory cfg c z k (src d p))).
Proof.
  intros H1 H2 Hn Ho G -> ->. unfold ReaderFacts.directory. rewrite H1, N.eqb_refl, <- H2, N.eqb_refl. cbn [negb orb].
  rewrite (bind_ok _ _ _ _ _ (seek_start_src _ d p)). rewrite <- Hn, <- Ho.
  destruct (N.le_gt_cases (n_count x * entry_mem_size cfg) isize_max) as [C|C].
  - assert (L : fst (cd cfg (n_count x) (src d (n_offset x))) = fst (cd_loop cfg (S (length d)) (n_count x) (src d (n_offset x)))).
    { unfold cd. rewrite bind_lift. unfold with_capacity. apply N.leb_le in C. now rewrite C. }
    pose proof (loop_outcome' cfg d (S (length d)) (n_count x) (n_offset x)) as O. rewrite <- L in O.
    destruct (cd cfg (n_count x) (src d (n_offset x))) as [[es|e|e] s'] eqn:D; cbn [fst unfit] in O.
    + rewrite (bind_ok _ _ _ _ _ D). cbn [ret fst opening_gives]. apply directory_reads in D as (rs & R & T & Ln).
      exists x, rs. split; [exact (conj (proj1 G) (conj R Ln))|]. split; [|now split]. split; [exact T|]. split; [reflexivity|]. apply zs_comment.
    + rewrite (bind_err _ _ _ _ _ D). eapply of_rows; [exact G|exact C|]. apply O. rewrite len_drop. unfold len. lia.
    + rewrite (bind_panic _ _ _ _ _ D). eapply of_rows; [exact G|exact C|]. apply O. rewrite len_drop. unfold len. lia.
  - unfold cd. unfold bind at 1. rewrite bind_lift. unfold with_capacity. replace (n_count x * entry_mem_size cfg <=? isize_max) with false by (symmetry; apply N.leb_gt; exact C).
    eapply of_capacity; eassumption.
Qed.
Lemma directory_split cfg c z k s : cb_disk_number c <> cb_disk_number_start_of_cd c \/ cb_num_entries c <> cb_num_entries_on_disk c ->
  fst (ReaderFacts.directory cfg c z k s) = Err (FeatureNotSupported FSplit).
Proof.
  intros [H|H]; apply N.eqb_neq in H; unfold ReaderFacts.directory; rewrite H; [reflexivity|]. cbn [negb]. now rewrite Bool.orb_true_r.
Qed.
Lemma file_outcome cfg d p0 : opening_gives cfg d (fst (file cfg (src d p0))).
Proof.
  destruct (locate_reach d p0) as [(a & Q & A)|[Q Nn]].
  2: { destruct (eocdr_locate (src d p0)) as [r s1] eqn:E. unfold locate in Q. rewrite E in Q. cbn [fst] in Q. subst r.
       unfold file. rewrite (bind_err _ _ _ _ _ E). apply of_end, ef_none, Nn. }
  destruct A as (Fo & Last & Re). pose proof (conj Fo (conj Last Re) : last_end_at d a) as A. set (q := a + 4) in *.
  destruct (eocdr_locate_calm _ _ _ Q) as [p1 P1].
  destruct (exact_split 18 d q) as [[L X]|[L [s1 X]]].
  2: { unfold file. rewrite (bind_ok _ _ _ _ _ P1), (bind_ok _ _ _ _ _ (seek_start_src q d p1)). unfold eocdr_from_reader.
       rewrite (bind_err _ _ _ _ _ (bind_err _ _ _ _ _ X)). apply of_end. eapply ef_cut; [exact A|].
       apply signature_at in Fo as [Fo _]; [|reflexivity]. rewrite len_drop in *. lia. }
  clear X. destruct (end_nums_at d a) as (d1 & d2 & n1 & n2 & size & off & cl & N & B); [exact Fo|exact L|]. fold q in N, B.
  assert (E18 : drop q d = take 18 (drop q d) ++ drop 18 (drop q d)) by (symmetry; apply take_drop).
  assert (L18 : len (take 18 (drop q d)) = 18) by (rewrite len_take; lia).
  assert (EH : end_here d a d1 d2 n1 n2 off) by (split; [exact A|]; do 3 eexists; exact N).
  set (cm := take cl (drop 18 (drop q d))).
  assert (Cl : no_locator d a -> opening_gives cfg d (fst (file cfg (src d p0)))).
  { intros NL. rewrite (file_classic_rest cfg d p0 q _ _ Q E18 L18).
    2: { intros G F. replace (q - 24) with (a - 20) in F by (unfold q; lia). revert F. apply NL. unfold q in G. lia. }
    rewrite B. cbn [e_file_comm_length]. fold cm. set (c := combined_from _).
    destruct (N.eq_dec d1 d2) as [Ed|Ed].
    2: { rewrite directory_split by (left; exact Ed). apply of_end. eapply ef_split; eauto. }
    destruct (N.eq_dec n1 n2) as [En|En].
    2: { rewrite directory_split by (right; unfold c; cbn; congruence). apply of_end. eapply ef_split; eauto. }
    apply directory_outcome with (x := {| n_at := a; n_locator := None; n_count := n1; n_offset := off; n_comment := cm |});
      [exact Ed|symmetry; exact En|exact En|reflexivity| |reflexivity|reflexivity].
    split; [|now split]. split; [exact Last|]. do 8 eexists. split; [exact N|]. cbn [n_comment n_locator n_at n_count n_offset].
    split; [unfold cm; now rewrite upto_take|]. now repeat split. }
  destruct (N.lt_ge_cases q 24) as [Q24|Q24]; [apply Cl; intros G; unfold q in *; lia|].
  destruct (exact_split 4 d (q - 24)) as [[L4 X4]|[L4 _]]; [|rewrite len_drop in *; lia].
  destruct (N.eq_dec (from_le (take 4 (drop (q - 24) d))) 0x07064b50) as [Sg|Sg].
  2: { apply Cl. intros G F. replace (a - 20) with (q - 24) in F by (unfold q; lia). apply signature_at in F as [_ F]; [now apply Sg|reflexivity]. }
  clear Cl. destruct (exact_split 16 d (q - 24 + 4)) as [[L16 X16]|[L16 _]]; [|rewrite len_drop in *; lia].
  destruct (nums_total [4; 8; 4]%nat (drop (q - 24 + 4) d)) as (vs & m & NL); [exact L16|].
  pose proof (proj1 (nums_fs _ _ _ _ NL)) as Ln. do 3 (destruct vs as [|? vs]; [discriminate Ln|apply eq_add_S in Ln]). destruct vs; [|discriminate Ln].
  pose proof (locator_nums _ _ _ _ _ NL) as [-> HL]. rename n0 into lo.
  assert (LH : locator_here d a lo).
  { split; [unfold q in *; lia|]. do 3 eexists. apply nums_step. change (N.of_nat 4) with 4. replace (a - 20) with (q - 24) by (unfold q; lia).
    rewrite past_drop. split; [exact L4|]. split; [now symmetry|]. rewrite drop_drop. exact NL. }
  assert (Run : fst (file cfg (src d p0)) = match uadd cfg lo 4 with
    | Ok pz => if 52 <=? len (drop pz d) then fst (ReaderFacts.directory cfg (combine (eocdr_from (take 18 (drop q d))) (z64_eocdr_from (take 52 (drop pz d)))) true (zs_new cm EUtf8) (src d 0))
               else Err (UpstreamReadError UnexpectedEof)
    | Err e => Err e | Panic e => Panic e end).
  { unfold file. rewrite (bind_ok _ _ _ _ _ P1), (bind_ok _ _ _ _ _ (seek_start_src q d p1)).
    rewrite (bind_ok _ _ _ _ _ (eocdr_from_reader_here d q _ _ E18 L18)). rewrite B. cbn [e_file_comm_length]. unfold read_string.
    rewrite (bind_ok _ _ _ _ _ (bind_ok _ _ _ _ _ (read_bytes_calm cl d (q + 18)))). rewrite <- drop_drop. fold cm.
    change (ZIP64_EOCDL_LENGTH + SIGNATURE_LENGTH) with 24. replace (q <? 24) with false by (symmetry; apply N.ltb_ge; exact Q24).
    unfold bind at 1. rewrite (bind_ok _ _ _ _ _ (seek_start_src _ d _)). unfold bind at 1. unfold z64_eocdl_try_from_reader. rewrite (bind_ok _ _ _ _ _ X4).
    rewrite Sg. change (negb (0x07064b50 =? ZIP64_EOCDL_SIGNATURE)) with false. cbv iota. rewrite (bind_ok _ _ _ _ _ X16). unfold ret at 1. cbv iota.
    rewrite HL. cbn [zl_relative_offset]. rewrite bind_lift. change SIGNATURE_LENGTH with 4. destruct (uadd cfg lo 4) as [pz|e|e]; [|reflexivity..].
    rewrite (bind_ok _ _ _ _ _ (seek_start_src _ d _)). unfold z64_eocdr_from_reader.
    destruct (exact_split 52 d pz) as [[L52 X]|[L52 [s1 X]]].
    - apply N.leb_le in L52. rewrite L52. rewrite (bind_ok _ _ _ _ _ (bind_ok _ _ _ _ _ X)). unfold ret at 1. apply ReaderFacts.directory_pos.
    - apply N.leb_gt in L52. rewrite L52. now rewrite (bind_err _ _ _ _ _ (bind_err _ _ _ _ _ X)). }
  assert (Go : forall pz, pz = (lo + 4) mod 0x10000000000000000 -> ~ overflows cfg lo ->
    opening_gives cfg d (if 52 <=? len (drop pz d) then fst (ReaderFacts.directory cfg (combine (eocdr_from (take 18 (drop q d))) (z64_eocdr_from (take 52 (drop pz d)))) true (zs_new cm EUtf8) (src d 0))
               else Err (UpstreamReadError UnexpectedEof))).
  { intros pz Hz Ov. destruct (N.leb_spec 52 (len (drop pz d))) as [L52|L52].
    2: { apply of_end. eapply ef_cut64; [exact EH|exact LH|exact Ov|]. rewrite <- Hz. rewrite len_drop in L52. lia. }
    destruct (nums_total [8; 2; 2; 4; 4; 8; 8; 8; 8]%nat (drop pz d)) as (vs & m' & NZ); [exact L52|].
    pose proof (proj1 (nums_fs _ _ _ _ NZ)) as Lz. do 9 (destruct vs as [|? vs]; [discriminate Lz|apply eq_add_S in Lz]). destruct vs; [|discriminate Lz].
    pose proof (z64_nums _ _ _ _ _ _ _ _ _ _ _ NZ) as [-> HZ]. rewrite HZ, B. clear HZ.
    match type of NZ with _ = Some ([?zs; ?mb; ?nd; ?z1; ?z2; ?zn1; ?zn2; ?zsz; ?zoff], _) =>
      rename zs into zsize; rename mb into zmb; rename nd into znd; rename z1 into zd1; rename z2 into zd2; rename zn1 into zk1; rename zn2 into zk2; rename zsz into zs2; rename zoff into zo end.
    assert (EZ : end64_here d lo zd1 zd2 zk1 zk2) by (do 6 eexists; rewrite past_drop, <- Hz; exact NZ).
    set (c := combine _ _).
    assert (C1 : cb_disk_number c = chosen 0xFFFF d1 zd1) by reflexivity. assert (C2 : cb_disk_number_start_of_cd c = chosen 0xFFFF d2 zd2) by reflexivity.
    assert (C3 : cb_num_entries_on_disk c = chosen 0xFFFF n1 zk1) by reflexivity. assert (C4 : cb_num_entries c = chosen 0xFFFF n2 zk2) by reflexivity.
    assert (C5 : cb_offset c = chosen 0xFFFFFFFF off zo) by reflexivity. clearbody c.
    destruct (N.eq_dec (chosen 0xFFFF d1 zd1) (chosen 0xFFFF d2 zd2)) as [Ed|Ed].
    2: { rewrite directory_split by (left; congruence). apply of_end. eapply ef_split64; [exact EH|exact LH|exact Ov|exact EZ|now left]. }
    destruct (N.eq_dec (chosen 0xFFFF n1 zk1) (chosen 0xFFFF n2 zk2)) as [En|En].
    2: { rewrite directory_split by (right; congruence). apply of_end. eapply ef_split64; [exact EH|exact LH|exact Ov|exact EZ|now right]. }
    apply directory_outcome with (x := {| n_at := a; n_locator := Some lo; n_count := chosen 0xFFFF n2 zk2; n_offset := chosen 0xFFFFFFFF off zo; n_comment := cm |});
      [congruence|congruence|now symmetry|now symmetry| |reflexivity|reflexivity].
    split; [|split; [exact Re|exact Ov]]. split; [exact Last|]. do 8 eexists. split; [exact N|]. cbn [n_comment n_locator n_at n_count n_offset].
    split; [unfold cm; now rewrite upto_take|]. destruct LH as (A20 & ld & ds & mo & NLo). split; [exact A20|].
    do 13 eexists. split; [exact NLo|]. split; [rewrite past_drop, <- Hz; exact NZ|]. now repeat split. }
  rewrite Run. clear Run. unfold uadd. destruct (N.leb_spec (lo + 4) u64_max) as [O|O].
  - apply Go; [symmetry; apply N.mod_small; unfold u64_max in O; lia|]. intros [_ Ov]. unfold u64_max in O. lia.
  - destruct (overflow_checks cfg) eqn:Oc.
    + apply of_end. eapply ef_overflow; [exact EH|exact LH|]. split; [exact Oc|]. unfold u64_max in O. lia.
    + apply Go; [reflexivity|]. intros [Ov _]. congruence.
Qed.

(** ** One outcome only *)
Lemma last_end_single d a a' : last_end_at d a -> last_end_at d a' -> a = a'.
Proof. intros (F & L & _) (F' & L' & _). apply L in F'. apply L' in F. lia. Qed.
Lemma end_here_single d a d1 d2 n1 n2 off a' d1' d2' n1' n2' off' : end_here d a d1 d2 n1 n2 off -> end_here d a' d1' d2' n1' n2' off' ->
  a = a' /\ d1 = d1' /\ d2 = d2' /\ n1 = n1' /\ n2 = n2' /\ off = off'.
Proof.
  intros (A & s & c & r & N) (A' & s' & c' & r' & N'). pose proof (last_end_single _ _ _ A A') as <-. rewrite N in N'.
  injection N' as <- <- <- <- <- <- <- <-. now repeat split.
Qed.
Lemma end_here_long d a d1 d2 n1 n2 off : end_here d a d1 d2 n1 n2 off -> a + 22 <= len d.
Proof. intros (_ & s & c & r & N). apply nums_short in N. change (widths_of _) with 22 in N. rewrite len_past in N. lia. Qed.
Lemma locator_single d a lo lo' : locator_here d a lo -> locator_here d a lo' -> lo = lo'.
Proof. intros (_ & x & y & z & N) (_ & x' & y' & z' & N'). rewrite N in N'. now injection N'. Qed.
Lemma locator_not d a lo : locator_here d a lo -> ~ no_locator d a.
Proof.
  intros (A & x & y & z & N) H. apply H in A. apply A. rewrite past_drop in N. apply nums_step in N as (L & S & _). apply signature_at; [reflexivity|]. now split.
Qed.
Lemma end64_single d lo z1 z2 n1 n2 z1' z2' n1' n2' : end64_here d lo z1 z2 n1 n2 -> end64_here d lo z1' z2' n1' n2' ->
  z1 = z1' /\ z2 = z2' /\ n1 = n1' /\ n2 = n2'.
Proof. intros (? & ? & ? & ? & ? & ? & N) (? & ? & ? & ? & ? & ? & N'). rewrite N in N'. injection N'. now repeat split. Qed.
Lemma end64_long d lo z1 z2 n1 n2 : end64_here d lo z1 z2 n1 n2 -> (lo + 4) mod 0x10000000000000000 + 52 <= len d.
Proof. intros (? & ? & ? & ? & ? & ? & N). apply nums_short in N. change (widths_of _) with 52 in N. rewrite len_past in N. lia. Qed.
Lemma end_here_reach d a d1 d2 n1 n2 off : end_here d a d1 d2 n1 n2 off -> exists q, found_at (le 4 0x06054b50) d q /\ len d <= q + reach.
Proof. intros ((F & _ & R) & _). eauto. Qed.
Ltac meet_ends := repeat match goal with
  | H : end_here ?d ?a _ _ _ _ _, H' : end_here ?d _ _ _ _ _ _ |- _ =>
    lazymatch H with H' => fail | _ => destruct (end_here_single _ _ _ _ _ _ _ _ _ _ _ _ _ H H') as (? & ? & ? & ? & ? & ?); subst; clear H' end
  | H : end_here ?d ?a _ _ _ _ _, H' : last_end_at ?d _ |- _ => pose proof (last_end_single _ _ _ (proj1 H) H'); subst; clear H'
  | H : locator_here ?d ?a _, H' : locator_here ?d ?a _ |- _ =>
    lazymatch H with H' => fail | _ => pose proof (locator_single _ _ _ _ H H'); subst; clear H' end
  | H : end64_here ?d ?l _ _ _ _, H' : end64_here ?d ?l _ _ _ _ |- _ =>
    lazymatch H with H' => fail | _ => destruct (end64_single _ _ _ _ _ _ _ _ _ _ H H') as (? & ? & ? & ?); subst; clear H' end
  end.
Ltac part_ends := exfalso; first [contradiction
  |match goal with H : locator_here ?d ?a _, H' : no_locator ?d ?a |- _ => exact (locator_not _ _ _ H H') end
  |match goal with H : end_here _ _ _ _ _ _ _ |- _ => apply end_here_long in H; lia end
  |match goal with H : end64_here _ _ _ _ _ _ |- _ => apply end64_long in H; lia end
  |match goal with H : forall q, found_at _ ?d q -> q + reach < len ?d, A : last_end_at ?d ?a |- _ => destruct A as (A & _ & ?); apply H in A; lia end
  |match goal with H : forall q, found_at _ ?d q -> q + reach < len ?d, A : end_here ?d ?a _ _ _ _ _ |- _ => destruct A as ((A & _ & ?) & _); apply H in A; lia end].
Lemma end_fail_single cfg d t t' : end_fails cfg d t -> end_fails cfg d t' -> t = t'.
Proof. intros A B. destruct A, B; try reflexivity; meet_ends; part_ends. Qed.
Lemma ends_here cfg d x : end_good cfg d x -> exists d1 d2 n1 n2 off, end_here d (n_at x) d1 d2 n1 n2 off /\
  match n_locator x with
  | None => no_locator d (n_at x) /\ d1 = d2 /\ n1 = n2
  | Some lo => locator_here d (n_at x) lo /\ ~ overflows cfg lo /\ exists z1 z2 zn1 zn2, end64_here d lo z1 z2 zn1 zn2 /\
      chosen 0xFFFF d1 z1 = chosen 0xFFFF d2 z2 /\ chosen 0xFFFF n1 zn1 = chosen 0xFFFF n2 zn2
  end.
Proof.
  intros (E & R & O). pose proof (ends_found _ _ E) as F. destruct E as (La & d1 & d2 & n1 & n2 & size & off & cl & rest & N & _ & M).
  exists d1, d2, n1, n2, off. split; [split; [exact (conj F (conj La R))|do 3 eexists; exact N]|]. destruct (n_locator x) as [lo|].
  - destruct M as (A20 & ldisk & disks & more & zsize & mb & nd & z1 & z2 & zn1 & zn2 & zsz & zoff & e64 & NLo & NZ & K1 & K2 & _).
    split; [split; [exact A20|do 3 eexists; exact NLo]|]. split; [exact O|]. exists z1, z2, zn1, zn2. split; [do 6 eexists; exact NZ|now split].
  - destruct M as (M & K1 & K2 & _). split; [exact M|now split].
Qed.
Lemma end_fail_not cfg d t x : end_fails cfg d t -> ~ end_good cfg d x.
Proof.
  intros A G. apply ends_here in G as (d1 & d2 & n1 & n2 & off & H & M). destruct (n_locator x) as [lo|].
  - destruct M as (L & O & z1 & z2 & zn1 & zn2 & Z & K1 & K2). destruct A; meet_ends; part_ends.
  - destruct M as (L & K1 & K2). destruct A; meet_ends; part_ends.
Qed.
Lemma end_good_single cfg d x x' : end_good cfg d x -> end_good cfg d x' -> x = x'.
Proof. intros (E & _) (E' & _). exact (ends_unique _ _ _ E E'). Qed.
Lemma open_fail_single cfg d t t' : open_fails cfg d t -> open_fails cfg d t' -> t = t'.
Proof.
  intros A B. destruct A as [t A|x G C|x t G C A], B as [t' B|x' G' C'|x' t' G' C' B].
  - exact (end_fail_single _ _ _ _ A B).
  - now elim (end_fail_not _ _ _ _ A G').
  - now elim (end_fail_not _ _ _ _ A G').
  - now elim (end_fail_not _ _ _ _ B G).
  - reflexivity.
  - pose proof (end_good_single _ _ _ _ G G') as <-. lia.
  - now elim (end_fail_not _ _ _ _ B G).
  - pose proof (end_good_single _ _ _ _ G G') as <-. lia.
  - pose proof (end_good_single _ _ _ _ G G') as <-. exact (rows_fail_single _ _ _ _ A _ B).
Qed.
Lemma open_fail_not cfg d t : open_fails cfg d t -> ~ openable cfg d.
Proof.
  intros A (x & rs & (E & R & L) & G & C & F). destruct A as [t A|x' G' C'|x' t G' C' A].
  - exact (end_fail_not _ _ _ _ A G).
  - pose proof (end_good_single _ _ _ _ G G') as <-. lia.
  - pose proof (end_good_single _ _ _ _ G G') as <-. exact (rows_fail_not _ _ _ _ A _ R L F).
Qed.
Lemma told_good rs es : Forall2 tells rs es -> Forall row_good rs.
Proof. induction 1; constructor; [apply row_good_tells; eauto|assumption]. Qed.
Lemma opening cfg s : nofail (s_sched s) -> opening_gives cfg (s_data s) (fst (file cfg s)).
Proof. intros Nf. rewrite file_nofail by exact Nf. exact (file_outcome cfg (s_data s) 0). Qed.
Lemma opening_fails cfg s t : nofail (s_sched s) -> fst (file cfg s) = failed t <-> open_fails cfg (s_data s) t.
Proof.
  intros Nf. pose proof (opening cfg s Nf) as O. split.
  - intros E. rewrite E in O. destruct t; exact O.
  - intros A. destruct (fst (file cfg s)) as [f|e|e]; cbn [opening_gives] in O.
    + exfalso. destruct O as (x & rs & S & (T & _) & G & C). apply (open_fail_not _ _ _ A). exists x, rs. apply told_good in T. now repeat (split; [assumption|]).
    + now rewrite <- (open_fail_single _ _ _ _ O A).
    + now rewrite <- (open_fail_single _ _ _ _ O A).
Qed.
Lemma opening_works cfg s : nofail (s_sched s) -> (exists f, fst (file cfg s) = Ok f) <-> openable cfg (s_data s).
Proof.
  intros Nf. pose proof (opening cfg s Nf) as O. split.
  - intros [f E]. rewrite E in O. destruct O as (x & rs & S & (T & _) & G & C). exists x, rs. apply told_good in T. now repeat (split; [assumption|]).
  - intros A. destruct (fst (file cfg s)) as [f|e|e]; cbn [opening_gives] in O; [eauto|now elim (open_fail_not _ _ _ O)..].
Qed.
Lemma opening_faults cfg s t : fst (file cfg s) = failed t ->
  open_fails cfg (s_data s) t \/ exists c, In (RFail c) (s_sched s) /\ t = Gives (UpstreamReadError (IoOther c)).
Proof.
  intros E. destruct (file_faults cfg s) as [F|(c & C & F)]; rewrite F in E.
  - left. apply (opening_fails cfg (cursor (s_data s)) t); [constructor|exact E].
  - right. exists c. split; [exact C|]. destruct t as [e|p]; [|discriminate]. now injection E as <-.
Qed.

(** ** The next header of a stream *)
Lemma top_result cfg d p needed flags method time date crc cs us nl xl m :
  nums top11 (drop p d) = Some ([0x04034b50; needed; flags; method; time; date; crc; cs; us; nl; xl], m) ->
  unfit (fun t => failed t = lfh_view cfg {| l_version := needed; l_flags := gp_from flags; l_compression := method; l_mod_time := time;
     l_mod_date := date; l_crc := crc; l_compressed_size := cs; l_uncompressed_size := us; l_file_name_length := nl;
     l_extra_field_length := xl |} (take nl m) (take xl (drop nl m))) (fst (lfh_read cfg (src d p))).
Proof.
  intros N. set (h := Build_lfh _ _ _ _ _ _ _ _ _ _). apply nums_fs in N as (_ & E & W). unfold top11 in E, W. cbn [List.combine] in E, W.
  set (body := record [(2%nat, needed); (2%nat, flags); (2%nat, method); (2%nat, time); (2%nat, date); (4%nat, crc); (4%nat, cs); (4%nat, us);
    (2%nat, nl); (2%nat, xl)]).
  assert (H : lfh_from body = h).
  { apart_widths. unfold body, record. cbn [map concat fst snd]. rewrite !le_to_le. apply lfh_from_fields; assumption. }
  assert (L : len body = 26) by reflexivity.
  assert (E4 : drop p d = to_le 4 LFH_SIGNATURE ++ body ++ m).
  { rewrite E. unfold body, record. cbn [map concat fst snd]. rewrite !le_to_le. now rewrite <- !app_assoc. }
  clearbody body. clear E W. pose proof (drop_step 4 _ _ _ _ E4 (len_to_le 4 _)) as E5. pose proof (drop_step 26 _ _ _ _ E5 L) as E6.
  set (q := p + 4 + 26) in *. unfold lfh_read.
  rewrite (bind_ok _ _ _ _ _ (read_exact_here 4 d p _ _ E4 (len_to_le 4 _))).
  rewrite from_to_le4 by reflexivity. cbv zeta.
  change (LFH_SIGNATURE =? CDH_SIGNATURE) with false. change (negb (LFH_SIGNATURE =? LFH_SIGNATURE)) with false. cbv iota.
  rewrite (bind_ok _ _ _ _ _ (lfh_from_reader_here d _ _ _ E5 L)). rewrite H. fold q.
  rewrite (bind_ok _ _ _ _ _ (read_bytes_calm (l_file_name_length h) d q)). change (l_file_name_length h) with nl. rewrite E6.
  rewrite bind_lift. unfold lfh_view. change (l_compression h) with method. destruct (compression_try_from method) as [c|x|x]; cbn [rbind]; [|reflexivity..].
  set (q1 := q + _). assert (D1 : drop q1 d = drop nl m) by (unfold q1; now rewrite <- E6, drop_read).
  rewrite (bind_ok _ _ _ _ _ (read_bytes_calm (l_extra_field_length h) d q1)). change (l_extra_field_length h) with xl. rewrite D1.
  rewrite bind_lift. destruct (parse_extra_fields _ _ _ _) as [xs|x|x]; cbn [rbind]; [|reflexivity..].
  destruct (get_combined_sizes _ _ _). destruct (_ && _); [reflexivity|]. destruct (gp_encrypted _); [reflexivity|exact I].
Qed.
Definition top_outcome (cfg : config) (d : bytes) (p : N) (r : res (option zentry)) : Prop :=
  match r with
  | Ok None => found_at (le 4 0x02014b50) d p
  | Ok (Some e) => exists t m, read_top (past p d) t m /\ top_tells t e /\ top_readable t e
  | Err e => top_fails cfg (past p d) (Gives e)
  | Panic e => top_fails cfg (past p d) (Panics e)
  end.
Lemma top_view_fails cfg l needed flags method time date crc cs us nl xl m t :
  nums top11 l = Some ([0x04034b50; needed; flags; method; time; date; crc; cs; us; nl; xl], m) ->
  failed t = lfh_view cfg {| l_version := needed; l_flags := gp_from flags; l_compression := method; l_mod_time := time;
     l_mod_date := date; l_crc := crc; l_compressed_size := cs; l_uncompressed_size := us; l_file_name_length := nl;
     l_extra_field_length := xl |} (take nl m) (take xl (drop nl m)) -> top_fails cfg l t.
Proof.
  intros N V. unfold lfh_view in V. cbn [l_compression l_flags l_uncompressed_size l_compressed_size] in V. rewrite gp_from_bits in V. cbn [gp_data_descriptor gp_encrypted] in V.
  pose proof (method_outcome method) as M. destruct (method_of method) as [c|] eqn:Mo; rewrite M in V; cbn [rbind] in V.
  2: { destruct t as [e|e]; [injection V as ->|discriminate]. eapply tf_method; eassumption. }
  pose proof (fields_outcome cfg us cs (take xl (drop nl m))) as F. destruct (parse_extra_fields _ _ _ _) as [xs|e|e] eqn:P; cbn [rbind unfit] in V, F.
  2, 3: destruct t; try discriminate; injection V as ->; eapply tf_fields; [exact N|exact Mo|rewrite upto_take, past_drop; exact F].
  apply fields_taken in P as (fs & S & Fs). assert (C : Forall complete fs) by (apply (completes_are us cs); eauto).
  rewrite <- upto_take, <- past_drop in S. pose proof (top_here _ _ _ _ _ _ _ _ _ _ _ _ _ N S) as R.
  destruct (N.testbit flags 3 && compression_eqb c Stored) eqn:D.
  - apply Bool.andb_true_iff in D as [D1 D2]. destruct t as [e|e]; [injection V as ->|discriminate]. eapply tf_endless; [exact R|exact C| |exact D1].
    cbn [tp_method]. rewrite Mo. destruct c; (reflexivity || discriminate D2).
  - destruct (N.testbit flags 0) eqn:En; [|destruct t; discriminate]. destruct t as [e|e]; [injection V as ->|discriminate].
    eapply tf_encrypted; [exact R|exact C|exact Mo| |exact En]. intros [-> D1]. cbn [tp_flags] in D1. rewrite D1 in D. discriminate D.
Qed.
Lemma lfh_trouble cfg d p : unfit (top_fails cfg (past p d)) (fst (lfh_read cfg (src d p))).
Proof.
  rewrite past_drop. set (l := drop p d).
  destruct (exact_split 4 d p) as [[L4 X4]|[L4 [s1 X4]]]; fold l in L4, X4;
    [|unfold lfh_read; rewrite (bind_err _ _ _ _ _ X4); now apply tf_nothing].
  destruct (N.eq_dec (from_le (take 4 l)) 0x02014b50) as [Sc|Sc];
    [unfold lfh_read; rewrite (bind_ok _ _ _ _ _ X4); cbv zeta; rewrite Sc; exact I|].
  destruct (N.eq_dec (from_le (take 4 l)) 0x04034b50) as [Sg|Sg].
  2: { unfold lfh_read. rewrite (bind_ok _ _ _ _ _ X4). cbv zeta. apply N.eqb_neq in Sg, Sc. change CDH_SIGNATURE with 0x02014b50. change LFH_SIGNATURE with 0x04034b50.
       rewrite Sc, Sg. cbn [negb fail fst unfit]. apply N.eqb_neq in Sg, Sc. rewrite <- value_upto in *. now apply tf_signature. }
  destruct (exact_split 26 d (p + 4)) as [[L26 X]|[L26 [s1 X]]]; rewrite len_drop in L26.
  2: { unfold lfh_read. rewrite (bind_ok _ _ _ _ _ X4). cbv zeta. rewrite Sg. change (0x04034b50 =? CDH_SIGNATURE) with false. change (negb (0x04034b50 =? LFH_SIGNATURE)) with false.
       cbv iota. unfold lfh_from_reader. rewrite (bind_err _ _ _ _ _ (bind_err _ _ _ _ _ X)). apply tf_cut; [now rewrite value_upto|unfold l in *; rewrite len_drop in *; lia]. }
  clear X. destruct (nums_total top11 l) as (vs & m & N); [change (widths_of top11) with 30; unfold l in *; rewrite len_drop in *; lia|].
  pose proof (proj1 (nums_fs _ _ _ _ N)) as Ln. change (length top11) with 11%nat in Ln.
  do 11 (destruct vs as [|? vs]; [discriminate Ln|apply eq_add_S in Ln]). destruct vs; [|discriminate Ln].
  pose proof (nums_head _ _ _ _ _ _ N) as Hd. change (N.of_nat 4) with 4 in Hd. rewrite Sg in Hd. subst n.
  pose proof (top_result cfg _ _ _ _ _ _ _ _ _ _ _ _ _ N) as R. destruct (fst (lfh_read cfg (src d p))) as [o|e|e]; [exact I|..];
    exact (top_view_fails _ _ _ _ _ _ _ _ _ _ _ _ _ _ N R).
Qed.
Lemma lfh_outcome cfg d p : top_outcome cfg d p (fst (lfh_read cfg (src d p))).
Proof.
  pose proof (lfh_trouble cfg d p) as U. destruct (lfh_read cfg (src d p)) as [[o|e|e] s'] eqn:Run; cbn [fst unfit] in *; [|exact U..].
  apply top_reads in Run. destruct o as [e|]; [destruct Run as (t & p' & _ & R & T & G); exists t; eauto|exact (proj1 Run)].
Qed.
Lemma top_head l v vs m : nums top11 l = Some (v :: vs, m) -> 30 <= len l /\ value (upto 4 l) = v.
Proof. intros H. split; [apply nums_short in H; exact H|]. apply nums_head in H. now rewrite value_upto. Qed.
Lemma read_top_nums l t m : read_top l t m -> exists needed nl xl mm, nums top11 l =
  Some ([0x04034b50; needed; tp_flags t; tp_method t; tp_time t; tp_date t; tp_crc t; tp_csize t; tp_usize t; nl; xl], mm) /\ some_fields (upto xl (past nl mm)) (tp_fields t).
Proof. intros [needed flags method time date crc cs us nl xl mm xs N F]. do 4 eexists. split; [exact N|exact F]. Qed.
Lemma top_fail_single cfg l t t' : top_fails cfg l t -> top_fails cfg l t' -> t = t'.
Proof.
  assert (Two : forall t m t' m', read_top l t m -> read_top l t' m' -> t = t') by (intros ? ? ? ? A B; exact (proj1 (top_unique _ _ _ A _ _ B))).
  intros A B. destruct A as [A|A A1 A2|A A1|nd fl me ti da cr cs us nl xl m N A|nd fl me ti da cr cs us nl xl m c t N A F|k m R C M D|k m c R C M D E];
    destruct B as [B|B B1 B2|B B1|nd' fl' me' ti' da' cr' cs' us' nl' xl' m' N' B|nd' fl' me' ti' da' cr' cs' us' nl' xl' m' c' t' N' B F'|k' m' R' C' M' D'|k' m' c' R' C' M' D' E'];
    try reflexivity;
    try match type of N with nums ?k l = _ => change k with top11 in N end; try (pose proof (top_head _ _ _ _ N) as [? ?]);
    try match type of N' with nums ?k l = _ => change k with top11 in N' end; try (pose proof (top_head _ _ _ _ N') as [? ?]);
    try (pose proof (read_top_nums _ _ _ R) as (? & ? & ? & ? & Nr & Fr); pose proof (top_head _ _ _ _ Nr) as [? ?]);
    try (pose proof (read_top_nums _ _ _ R') as (? & ? & ? & ? & Nr' & Fr'); pose proof (top_head _ _ _ _ Nr') as [? ?]);
    try lia; try congruence.
  all: try (pose proof (Two _ _ _ _ R R') as <-; exfalso; first [apply D'; split; congruence|apply D; split; congruence]).
  all: try (rewrite N in N'; injection N' as <- <- <- <- <- <- <- <- <- <- <-; first [congruence|eapply fields_fail_single; eassumption]).
  all: first [rewrite N in Nr'; injection Nr'|rewrite N' in Nr; injection Nr]; intros; subst; first [congruence|exfalso; eapply fields_fail_not; eassumption].
Qed.
Lemma top_fail_not cfg l t k m e : top_fails cfg l t -> read_top l k m -> top_tells k e -> ~ top_readable k e.
Proof.
  intros A R T [G1 G2]. pose proof T as (Fi & _ & _ & Me & _). assert (C : Forall complete (tp_fields k)) by (apply (completes_are (tp_usize k) (tp_csize k)); eauto).
  pose proof (read_top_nums _ _ _ R) as (? & ? & ? & ? & Nr & Fr). pose proof (top_head _ _ _ _ Nr) as [L V].
  destruct A as [A|A A1 A2|A A1|nd fl me ti da cr cs us nl xl m' N A|nd fl me ti da cr cs us nl xl m' c t N A F|k' m' R' C' M D|k' m' c R' C' M D E];
    try lia; try congruence.
  - change (nums top11 l = Some ([0x04034b50; nd; fl; me; ti; da; cr; cs; us; nl; xl], m')) in N. rewrite N in Nr. injection Nr. intros. congruence.
  - change (nums top11 l = Some ([0x04034b50; nd; fl; me; ti; da; cr; cs; us; nl; xl], m')) in N. rewrite N in Nr. injection Nr. intros. subst.
    eapply fields_fail_not; eassumption.
  - destruct (top_unique _ _ _ R _ _ R') as [<- _]. apply G2. split; [exact D|congruence].
  - destruct (top_unique _ _ _ R _ _ R') as [<- _]. congruence.
Qed.
Lemma top_fail_end cfg d p t : top_fails cfg (past p d) t -> ~ found_at (le 4 0x02014b50) d p.
Proof.
  intros A F. apply signature_at in F as [L F]; [|reflexivity]. rewrite <- past_drop in L, F. rewrite <- value_upto in F.
  destruct A as [A|A A1 A2|A A1|nd fl me ti da cr cs us nl xl m' N A|nd fl me ti da cr cs us nl xl m' c t N A _|k' m' R' C' M D|k' m' c R' C' M D E]; try lia; try congruence;
    try (apply top_head in N as [_ N]; congruence); apply read_top_nums in R' as (? & ? & ? & ? & Nr & _); apply top_head in Nr as [_ Nr]; congruence.
Qed.
Lemma next_outcome cfg s : nofail (s_sched s) ->
  match fst (stream_next cfg s) with
  | Ok None => found_at (le 4 0x02014b50) (s_data s) (s_pos s)
  | Ok (Some r) => exists t m, read_top (past (s_pos s) (s_data s)) t m /\ top_tells t (rd_entry r) /\ top_readable t (rd_entry r)
  | Err e => top_fails cfg (past (s_pos s) (s_data s)) (Gives e)
  | Panic e => top_fails cfg (past (s_pos s) (s_data s)) (Panics e)
  end.
Proof.
  intros Nf. destruct (agrees_any (lfh_read cfg) s (insens_lfh_read cfg) Nf) as (q & A & _ & _). pose proof (lfh_outcome cfg (s_data s) (s_pos s)) as O.
  change (src (s_data s) (s_pos s)) with (calm s) in O. unfold stream_next. rewrite A. destruct (fst (lfh_read cfg (calm s))) as [[e|]|e|e]; exact O.
Qed.
Lemma next_fails cfg s t : nofail (s_sched s) -> fst (stream_next cfg s) = failed t <-> top_fails cfg (past (s_pos s) (s_data s)) t.
Proof.
  intros Nf. pose proof (next_outcome cfg s Nf) as O. split.
  - intros E. rewrite E in O. destruct t; exact O.
  - intros A. destruct (fst (stream_next cfg s)) as [[r|]|e|e].
    + destruct O as (k & m & R & T & G). now elim (top_fail_not _ _ _ _ _ _ A R T).
    + now elim (top_fail_end _ _ _ _ A).
    + now rewrite <- (top_fail_single _ _ _ _ O A).
    + now rewrite <- (top_fail_single _ _ _ _ O A).
Qed.
Lemma next_faults cfg s t : fst (stream_next cfg s) = failed t ->
  top_fails cfg (past (s_pos s) (s_data s)) t \/ exists c, In (RFail c) (s_sched s) /\ t = Gives (UpstreamReadError (IoOther c)).
Proof.
  intros E. pose proof (insens_lfh_read cfg s) as I. unfold agrees in I. unfold stream_next in E.
  pose proof (lfh_outcome cfg (s_data s) (s_pos s)) as O. change (src (s_data s) (s_pos s)) with (calm s) in O.
  destruct (lfh_read cfg s) as [r s'], (lfh_read cfg (calm s)) as [r0 s0]. destruct I as (_ & _ & _ & used & U & [(_ & -> & _)|(pre & c & -> & _ & ->)]).
  - left. cbn [fst] in O. destruct r0 as [[e|]|e|e]; destruct t; try discriminate; injection E as <-; exact O.
  - right. exists c. split; [rewrite U; apply in_or_app; left; apply in_or_app; right; now left|]. destruct t; [now injection E as <-|discriminate].
Qed.
