(** Proofs: opening reports exactly what stands in the bytes. *)
From Verif Require Import Base BaseFacts SpecFormat SpecCrc SpecUtf8 SpecArchive SpecRead EntryReader SpecStrict SpecExact Crc32 CrcFacts Utf8 Utf8Facts ZString ZDate
  Headers HeadersFacts ExtraField ExtraFieldFacts Entry IO IOFacts Locator LocatorFacts Reader ReaderFacts OpenFacts EntryProofs ReadProofs StrictProofs SpecAccept AcceptProofs.
Arguments N.mul : simpl never.
Arguments N.add : simpl never.
Arguments N.sub : simpl never.
Arguments N.min : simpl never.

Lemma upto_take n l : upto n l = take n l.
Proof. unfold upto. now rewrite take_firstn. Qed.
Lemma past_drop n l : past n l = drop n l.
Proof. unfold past. now rewrite drop_skipn. Qed.

(** ** Texts: there is one reading *)
Lemma first_speaker mk basic : (forall u v, mk u = mk v -> u = v) -> forall a t b a' t' b',
  a ++ mk (UV1 (crc32_spec basic) t) :: b = a' ++ mk (UV1 (crc32_spec basic) t') :: b' ->
  Forall (fun x => ~ speaks_of mk basic x) a -> Forall (fun x => ~ speaks_of mk basic x) a' -> t = t'.
Proof.
  intros I. induction a as [|x a IH]; intros t b [|x' a'] t' b' E F F'; cbn [app] in E.
  - injection E as E _. apply I in E. now injection E.
  - injection E as <- _. elim (Forall_inv F'). now eexists.
  - injection E as -> _. elim (Forall_inv F). now eexists.
  - injection E as <- E. apply Forall_inv_tail in F, F'. now apply (IH _ _ _ _ _ E).
Qed.
Lemma speaker_not mk basic a t b : ~ Forall (fun x => ~ speaks_of mk basic x) (a ++ mk (UV1 (crc32_spec basic) t) :: b).
Proof. intros F. apply Forall_app in F as [_ F]. elim (Forall_inv F). now eexists. Qed.
Lemma reads_as_unique mk flag xs basic z z' : (forall u v, mk u = mk v -> u = v) ->
  reads_as mk flag xs basic z -> reads_as mk flag xs basic z' -> z = z'.
Proof.
  intros I H K.
  assert (N : forall a t b, xs = a ++ mk (UV1 (crc32_spec basic) t) :: b -> Forall (fun x => ~ speaks_of mk basic x) a -> is_utf8 t -> ~ no_text mk basic xs).
  { intros a t b -> F U [G|(a' & t' & b' & E & F' & V)]; [now apply speaker_not in G|].
    apply (first_speaker mk basic I) in E; [|assumption..]. now subst t'. }
  destruct H as [F U|F U|a t b F E S U|F T A|F T A]; destruct K as [F' U'|F' U'|a' t' b' F' E' S' U'|F' T' A'|F' T' A']; try congruence; try contradiction;
    try (exfalso; eapply N; eassumption).
  f_equal. rewrite E in E'. now apply (first_speaker mk basic I) in E'.
Qed.

(** ** Extra fields *)
Lemma some_block x xs : some_fields x xs <-> block x xs true.
Proof.
  split.
  - induction 1 as [l L|l id n m p r xs L N T _ IH]; [now apply block_end|].
    apply nums_fs in N as (_ & -> & W). apply text_inv in T as [-> T]. subst n. cbn [List.combine] in *. rewrite app_assoc. fold (extra id p) in *.
    apply block_field; [exact (Forall_inv W)|exact (Forall_inv (Forall_inv_tail W))| |exact IH].
    intros E. rewrite E, app_nil_r in L. now cbn in L.
  - remember true as ok eqn:EO. induction 1 as [d L|d L L2|id p rest l ok B1 B2 NE B IH]; [now constructor|discriminate|].
    apply (sf_field _ id (len p) (p ++ rest) p rest); [| |apply text_app|now apply IH].
    + unfold extra. rewrite !len_app. change (len (record [(2%nat, id); (2%nat, len p)])) with 4.
      assert (len (p ++ rest) <> 0) by (destruct (p ++ rest); [easy|rewrite len_cons; lia]). rewrite len_app in *. lia.
    + unfold extra. rewrite <- app_assoc. apply nums_at with (fs := [(2%nat, id); (2%nat, len p)]); try reflexivity. widths.
Qed.
Lemma value_slice a k p : from_le (slice a (a + k) p) = value (upto k (past a p)).
Proof. etransitivity; [symmetry; apply StrictProofs.value_from|]. rewrite upto_take, past_drop. unfold slice. now replace (a + k - a) with k by lia. Qed.
Lemma past_past a b p : past a (past b p) = past (b + a) p.
Proof. rewrite !past_drop. apply drop_drop. Qed.
Lemma len_past a p : len (past a p) = len p - a.
Proof. rewrite past_drop. apply len_drop. Qed.
Definition zip64_by (us cs : N) (p : bytes) : zip64_field :=
  let '(u, p) := next8 (us =? 0xFFFFFFFF) p in let '(c, p) := next8 (cs =? 0xFFFFFFFF) p in let '(o, p) := next8 true p in
  {| zf_uncompressed := u; zf_compressed := c; zf_offset := o; zf_disk := if 4 <=? len p then Some (value (upto 4 p)) else None |}.
Definition at8 (b : bool) (i : N) (p : bytes) : option N * N :=
  if b && (i + 8 <=? len p) then (Some (from_le (slice i (i + 8) p)), i + 8) else (None, i).
Lemma next_at b i p : i <= len p -> next8 b (past i p) = (fst (at8 b i p), past (snd (at8 b i p)) p) /\ snd (at8 b i p) <= len p.
Proof.
  intros L. unfold at8, next8. rewrite len_past. replace (8 <=? len p - i) with (i + 8 <=? len p) by (destruct (N.leb_spec (i + 8) (len p)), (N.leb_spec 8 (len p - i)); lia || reflexivity).
  destruct b; cbn [andb]; [|now split]. destruct (N.leb_spec (i + 8) (len p)); cbn [fst snd]; [|now split].
  rewrite value_slice, past_past. now split.
Qed.
Lemma zip64_by_ok us cs p : zip64_from_bytes p us cs = zip64_by us cs p.
Proof.
  unfold zip64_from_bytes, zip64_by. change NON_ZIP64_MAX_SIZE with 0xFFFFFFFF.
  change (if (us =? 0xFFFFFFFF) && (0 + 8 <=? len p) then _ else _) with (at8 (us =? 0xFFFFFFFF) 0 p).
  assert (P0 : p = past 0 p) by (rewrite past_drop; symmetry; apply drop_0).
  destruct (next_at (us =? 0xFFFFFFFF) 0 p ltac:(lia)) as [E1 L1]. rewrite <- P0 in E1. rewrite E1. destruct (at8 (us =? 0xFFFFFFFF) 0 p) as [u i]. cbn [fst snd] in *.
  change (if (cs =? 0xFFFFFFFF) && (i + 8 <=? len p) then _ else _) with (at8 (cs =? 0xFFFFFFFF) i p).
  destruct (next_at (cs =? 0xFFFFFFFF) i p L1) as [E2 L2]. rewrite E2. destruct (at8 (cs =? 0xFFFFFFFF) i p) as [c j]. cbn [fst snd] in *.
  change (if j + 8 <=? len p then _ else _) with (at8 true j p).
  destruct (next_at true j p L2) as [E3 L3]. rewrite E3. destruct (at8 true j p) as [o k]. cbn [fst snd] in *.
  rewrite len_past, value_slice. replace (4 <=? len p - k) with (k + 4 <=? len p); [reflexivity|].
  destruct (N.leb_spec (k + 4) (len p)), (N.leb_spec 4 (len p - k)); lia || reflexivity.
Qed.
Lemma field_is_zip64 us cs id p z : field_is us cs (id, p) (XZip64 z) <-> id = 1 /\ z = zip64_by us cs p.
Proof.
  unfold field_is, zip64_by. cbn [fst snd]. destruct (next8 _ p) as [u p1]. destruct (next8 _ p1) as [c p2]. now destruct (next8 true p2) as [o p3].
Qed.
(** a Unicode field is taken apart in one way *)
Definition unicode_of (p : bytes) (u : unicode_field) : Prop :=
  p = spec_unicode u /\ match u with UV1 crc _ => crc < 0x100000000 | UUnknown v _ => b2n v <> 1 end.
Lemma unicode_taken e p u : unicode_from_bytes e (len p) p = Ok u <-> unicode_of p u.
Proof.
  unfold unicode_of. rewrite spec_unicode_payload. split.
  - intros E. destruct (unicode_from_bytes_total e p) as [(w & F & W & P)|F].
    + intros ->. discriminate.
    + rewrite F in E. injection E as ->. split; [now symmetry|]. destruct u; exact W.
    + congruence.
  - intros [-> W]. apply unicode_payload_roundtrip. destruct u; exact W.
Qed.
Lemma field_taken us cs id p x : extra_field_from_bytes id (len p) p us cs = Ok x <-> field_is us cs (id, p) x.
Proof.
  unfold extra_field_from_bytes. change ID_ZIP64 with 1. change ID_UCOMMENT with 0x6375. change ID_UPATH with 0x7075.
  destruct (N.eqb_spec id 1) as [->|N1].
  { rewrite zip64_by_ok. destruct x as [z| | |].
    - rewrite field_is_zip64. split; [intros E; now injection E as <-|now intros [_ ->]].
    - split; [discriminate|intros [E _]; discriminate].
    - split; [discriminate|intros [E _]; discriminate].
    - split; [discriminate|]. intros (E & NE & _). now elim NE. }
  destruct (N.eqb_spec id 0x6375) as [->|N2].
  { destruct x as [z|u|u|i n c].
    - rewrite field_is_zip64. split; [|intros [E _]; discriminate]. now destruct (unicode_from_bytes _ _ _).
    - split.
      + intros E. destruct (unicode_from_bytes _ _ _) as [w| |] eqn:F; try discriminate. injection E as ->. apply unicode_taken in F. now split.
      + intros [_ E]. apply (proj2 (unicode_taken InfoZipUnicodeCommentFieldIncomplete p u)) in E. now rewrite E.
    - split; [|intros [E _]; discriminate]. now destruct (unicode_from_bytes _ _ _).
    - split; [now destruct (unicode_from_bytes _ _ _)|]. intros (E & _ & NE & _). now elim NE. }
  destruct (N.eqb_spec id 0x7075) as [->|N3].
  { destruct x as [z|u|u|i n c].
    - rewrite field_is_zip64. split; [|intros [E _]; discriminate]. now destruct (unicode_from_bytes _ _ _).
    - split; [|intros [E _]; discriminate]. now destruct (unicode_from_bytes _ _ _).
    - split.
      + intros E. destruct (unicode_from_bytes _ _ _) as [w| |] eqn:F; try discriminate. injection E as ->. apply unicode_taken in F. now split.
      + intros [_ E]. apply (proj2 (unicode_taken InfoZipUnicodePathFieldIncomplete p u)) in E. now rewrite E.
    - split; [now destruct (unicode_from_bytes _ _ _)|]. intros (E & _ & _ & NE & _). now elim NE. }
  destruct x as [z|u|u|i n c].
  - rewrite field_is_zip64. split; [discriminate|]. now intros [-> _].
  - split; [discriminate|]. now intros [E _].
  - split; [discriminate|]. now intros [E _].
  - split; [intros E; injection E as <- <- <-; now repeat split|]. intros (E & _ & _ & _ & -> & ->). cbn [fst snd] in E. now rewrite E.
Qed.
Lemma decode_fields cfg us cs l : forall xs, decode_all cfg us cs l (Ok []) = Ok xs <-> Forall2 (field_is us cs) l xs.
Proof.
  induction l as [|[id p] l IH]; intros xs; cbn [decode_all].
  - split; [intros E; injection E as <-; constructor|intros E; now inversion E].
  - split.
    + intros E. apply rbind_ok in E as (x & X & E). apply rbind_ok in E as (ys & Y & E). injection E as <-. constructor; [now apply field_taken|now apply IH].
    + intros E. inversion E as [|a x b ys X Y]; subst. apply field_taken in X. apply IH in Y. now rewrite X, Y.
Qed.
Lemma fields_taken cfg us cs x xs : parse_extra_fields cfg x us cs = Ok xs <-> exists l, some_fields x l /\ Forall2 (field_is us cs) l xs.
Proof.
  split.
  - intros E. destruct (block_total x) as (l & ok & B). destruct (parse_block cfg x us cs l ok B) as (last & P & H1 & H2 & H3). rewrite E in P. symmetry in P.
    destruct ok.
    + rewrite (H1 eq_refl) in P. exists l. split; [now apply some_block|]. now apply decode_fields in P.
    + apply decode_all_ok in P as (ys & zs & _ & L & _). destruct (overflow_checks cfg).
      * rewrite (H2 eq_refl eq_refl) in L. discriminate.
      * destruct (H3 eq_refl eq_refl) as (? & ? & H). rewrite H in L. discriminate.
  - intros (l & S & F). apply some_block in S. destruct (parse_block cfg x us cs l true S) as (last & -> & H1 & _). rewrite (H1 eq_refl). now apply decode_fields.
Qed.
Lemma some_fields_unique x l : some_fields x l -> forall m, some_fields x m -> l = m.
Proof.
  induction 1 as [x L|x id n m p r xs L N T _ IH]; intros y K; inversion K as [z L'|z id' n' m' p' r' ys L' N' T' K' E1 E2]; subst; try reflexivity; try lia.
  rewrite N in N'. injection N' as <- <- <-. rewrite T in T'. injection T' as <- <-. f_equal. now apply IH.
Qed.

(** ** Records *)
Lemma zip64_found us cs l xs : Forall2 (field_is us cs) l xs -> get_zip64_extra_field xs = option_map (zip64_by us cs) (zip64_of l).
Proof.
  induction 1 as [|[id p] x l xs F _ IH]; [reflexivity|]. cbn [zip64_of]. destruct x as [z|u|u|i n c].
  - apply field_is_zip64 in F as [-> ->]. reflexivity.
  - destruct F as [E _]. cbn [fst] in E. rewrite E. exact IH.
  - destruct F as [E _]. cbn [fst] in E. rewrite E. exact IH.
  - destruct F as (E & N1 & _). cbn [fst] in E. apply N.eqb_neq in N1. rewrite E, N1. exact IH.
Qed.
Lemma placed_ok us cs off l xs : Forall2 (field_is us cs) l xs ->
  forall r, w_usize r = us -> w_csize r = cs -> w_offset r = off -> w_fields r = l ->
  placed r = (get_combined_sizes us cs (get_zip64_extra_field xs),
              match get_zip64_extra_field xs with
              | Some z => if off =? NON_ZIP64_MAX_SIZE then match zf_offset z with Some o => o | None => off end else off
              | None => off end).
Proof.
  intros F r <- <- <- <-. rewrite (zip64_found _ _ _ _ F). unfold placed. destruct (zip64_of (w_fields r)) as [p|]; cbn [option_map].
  - unfold zip64_by, get_combined_sizes. destruct (next8 (w_usize r =? _) p) as [u p1]. destruct (next8 (w_csize r =? _) p1) as [c p2].
    change NON_ZIP64_MAX_SIZE with 0xFFFFFFFF. unfold next8. destruct (w_offset r =? 0xFFFFFFFF), (8 <=? len p2); cbn [andb zf_uncompressed zf_compressed zf_offset]; reflexivity.
  - unfold next8. change (8 <=? len (@nil byte)) with false. now rewrite !Bool.andb_false_r.
Qed.
Lemma method_taken v c : compression_try_from v = Ok c <-> method_of v = Some c.
Proof.
  split; [|intros E; apply method_of_inv in E as ->; apply method_back]. intros E.
  destruct (method_of v) as [k|] eqn:M; [apply method_of_inv in M as ->; rewrite method_back in E; now injection E as ->|].
  apply compression_from_ok in E. subst v. destruct c; discriminate.
Qed.
Definition widths_of (ks : list nat) : N := N.of_nat (fold_right plus 0%nat ks).
Lemma nums_total ks : forall l, widths_of ks <= len l -> exists vs m, nums ks l = Some (vs, m).
Proof.
  induction ks as [|k ks IH]; intros l L; cbn [nums]; [eauto|]. unfold widths_of in *. cbn [fold_right] in L.
  destruct (split_at (N.of_nat k) l) as (a & b & -> & E); [lia|]. rewrite <- E, text_app. rewrite len_app in L.
  destruct (IH b) as (vs & m & ->); [lia|]. eauto.
Qed.
Lemma nums_long ks : forall l vs m, nums ks l = Some (vs, m) -> len l = widths_of ks + len m.
Proof.
  induction ks as [|k ks IH]; intros l vs m E; cbn [nums] in E; [injection E as _ <-; unfold widths_of; cbn; lia|].
  destruct (text (N.of_nat k) l) as [[b l']|] eqn:T; [|discriminate]. destruct (nums ks l') as [[vs' r']|] eqn:N; [|discriminate].
  injection E as _ <-. apply text_inv in T as [-> T]. apply IH in N. rewrite len_app, N. unfold widths_of. cbn [fold_right]. lia.
Qed.
Lemma drop_read (d : bytes) p n : drop (p + N.min n (len (drop p d))) d = drop n (drop p d).
Proof.
  rewrite drop_drop. destruct (N.le_gt_cases n (len (drop p d))); [f_equal; lia|].
  rewrite len_drop in *. rewrite !drop_all; [reflexivity|lia|lia].
Qed.
Ltac apart_widths := repeat match goal with H : Forall in_width (_ :: _) |- _ => let B := fresh "B" in
  pose proof (in_width_of _ _ (Forall_inv H)) as B; apply Forall_inv_tail in H end.
Definition row17 : list nat := [4; 2; 2; 2; 2; 2; 2; 4; 4; 4; 2; 2; 2; 2; 2; 4; 4]%nat.
Lemma record_run cfg d p made needed flags method time date crc cs us nl xl cl disk ia ea off m :
  nums row17 (drop p d) = Some ([0x02014b50; made; needed; flags; method; time; date; crc; cs; us; nl; xl; cl; disk; ia; ea; off], m) ->
  let h := {| c_v_made_by := made; c_v_needed := needed; c_flags := gp_from flags; c_compression := method; c_mod_time := time;
     c_mod_date := date; c_crc := crc; c_compressed_size := cs; c_uncompressed_size := us; c_file_name_length := nl;
     c_extra_field_length := xl; c_file_comment_length := cl; c_disk_start := disk; c_inter_attr := ia;
     c_exter_attr := ea; c_lh_offset := off |} in
  exists p', drop p' d = drop cl (drop xl (drop nl m)) /\
    forall e s', cd_record cfg (src d p) = (Ok e, s') <->
      cd_view cfg h (take nl m) (take xl (drop nl m)) (take cl (drop xl (drop nl m))) = Ok e /\ s' = src d p'.
Proof.
  intros N h. apply nums_fs in N as (_ & E & W). unfold row17 in E, W. cbn [List.combine] in E, W.
  set (body := record [(2%nat, made); (2%nat, needed); (2%nat, flags); (2%nat, method); (2%nat, time); (2%nat, date); (4%nat, crc); (4%nat, cs); (4%nat, us);
    (2%nat, nl); (2%nat, xl); (2%nat, cl); (2%nat, disk); (2%nat, ia); (4%nat, ea); (4%nat, off)]).
  assert (H : cdr_from body = h).
  { apart_widths. unfold body, record. cbn [map concat fst snd]. rewrite !le_to_le. apply cdr_from_fields; assumption. }
  assert (L : len body = 42) by reflexivity.
  assert (E4 : drop p d = to_le 4 CDH_SIGNATURE ++ body ++ m).
  { rewrite E. unfold body, record. cbn [map concat fst snd]. rewrite !le_to_le. now rewrite <- !app_assoc. }
  clearbody body. clear E W. pose proof (drop_step 4 _ _ _ _ E4 (len_to_le 4 _)) as E5. pose proof (drop_step 42 _ _ _ _ E5 L) as E6.
  set (q := p + 4 + 42) in *.
  set (q1 := q + N.min nl (len (drop q d))). set (q2 := q1 + N.min xl (len (drop q1 d))). set (q3 := q2 + N.min cl (len (drop q2 d))).
  assert (D1 : drop q1 d = drop nl m) by (unfold q1; now rewrite drop_read, E6).
  assert (D2 : drop q2 d = drop xl (drop nl m)) by (unfold q2; now rewrite drop_read, D1).
  assert (D3 : drop q3 d = drop cl (drop xl (drop nl m))) by (unfold q3; now rewrite drop_read, D2).
  exists q3. split; [exact D3|]. intros e s'. unfold cd_record.
  rewrite (bind_ok _ _ _ _ _ (assert_signature_here CDH_SIGNATURE d p _ ltac:(reflexivity) E4)).
  rewrite (bind_ok _ _ _ _ _ (cdr_from_reader_here d _ _ _ E5 L)). rewrite H. fold q.
  rewrite (bind_ok _ _ _ _ _ (read_bytes_calm (c_file_name_length h) d q)). change (c_file_name_length h) with nl. fold q1. rewrite E6.
  unfold cd_view. change (c_compression h) with method. destruct (compression_try_from method) as [c|x|x]; cbn [rbind];
    [|rewrite (bind_err (lift (Err x)) _ _ x (src d q1) eq_refl); split; [discriminate|intros [B _]; discriminate B]
     |rewrite (bind_panic (lift (Panic x)) _ _ x (src d q1) eq_refl); split; [discriminate|intros [B _]; discriminate B]].
  rewrite (bind_ok (lift (Ok c)) _ _ c (src d q1) eq_refl).
  rewrite (bind_ok _ _ _ _ _ (read_bytes_calm (c_extra_field_length h) d q1)). change (c_extra_field_length h) with xl. fold q2. rewrite D1.
  destruct (parse_extra_fields _ _ _ _) as [xs|x|x]; cbn [rbind];
    [|rewrite (bind_err (lift (Err x)) _ _ x (src d q2) eq_refl); split; [discriminate|intros [B _]; discriminate B]
     |rewrite (bind_panic (lift (Panic x)) _ _ x (src d q2) eq_refl); split; [discriminate|intros [B _]; discriminate B]].
  rewrite (bind_ok (lift (Ok xs)) _ _ xs (src d q2) eq_refl).
  rewrite (bind_ok _ _ _ _ _ (read_bytes_calm (c_file_comment_length h) d q2)). change (c_file_comment_length h) with cl. fold q3. rewrite D2.
  unfold cd_entry_view, cd_sizes, cd_offset.
  destruct (get_combined_sizes (c_uncompressed_size h) (c_compressed_size h) (get_zip64_extra_field xs)) as [us' cs'].
  change SIGNATURE_LENGTH with 4. change LFH_LENGTH with 26. cbn [fst snd]. unfold ret.
  split; [intros X; injection X as <- <-; split; [|reflexivity]|intros [X ->]; injection X as <-]; reflexivity.
Qed.
Lemma row_tells cfg made needed flags method time date crc cs us nl xl cl disk ia ea off name x cm e :
  cd_view cfg {| c_v_made_by := made; c_v_needed := needed; c_flags := gp_from flags; c_compression := method; c_mod_time := time;
     c_mod_date := date; c_crc := crc; c_compressed_size := cs; c_uncompressed_size := us; c_file_name_length := nl;
     c_extra_field_length := xl; c_file_comment_length := cl; c_disk_start := disk; c_inter_attr := ia;
     c_exter_attr := ea; c_lh_offset := off |} name x cm = Ok e <->
  exists l, some_fields x l /\
    tells {| w_flags := flags; w_method := method; w_time := time; w_date := date; w_crc := crc; w_csize := cs; w_usize := us; w_nlen := nl;
         w_xlen := xl; w_iattr := ia; w_eattr := ea; w_offset := off; w_name := name; w_fields := l; w_comment := cm |} e.
Proof.
  unfold cd_view. cbn [c_compression c_uncompressed_size c_compressed_size]. split.
  - intros E. apply rbind_ok in E as (c & C & E). apply rbind_ok in E as (xs & X & E). apply Ok_inj in E. subst e.
    apply fields_taken in X as (l & S & F). apply method_taken in C. exists l. split; [exact S|]. unfold tells, cd_entry_view.
    cbn [st_entry en_extra w_usize w_csize w_fields w_flags en_filename w_name en_comment w_comment w_method en_compression en_level en_crc32 w_crc
      en_uncompressed_size en_compressed_size st_file_offset en_attr_compat en_date w_date w_time en_iattr w_iattr en_eattr w_eattr
      en_data_descriptor st_header_size w_nlen w_xlen c_flags c_crc c_mod_date c_mod_time c_inter_attr c_exter_attr c_file_name_length c_extra_field_length].
    rewrite gp_from_bits. cbn [gp_filename_unicode gp_data_descriptor].
    split; [exact F|]. split; [apply detect_filename_spec|]. split; [apply detect_comment_spec|]. split; [exact C|]. do 2 (split; [reflexivity|]).
    split; [|repeat split; lia]. erewrite (placed_ok us cs off l xs F) by reflexivity. unfold cd_sizes, cd_offset.
    cbn [c_compressed_size c_uncompressed_size c_lh_offset]. now destruct (get_combined_sizes _ _ _).
  - intros (l & S & F & N & Cm & C & Lv & Cr & P & At & Dt & Ia & Ea & Dd & Hs).
    cbn [w_usize w_csize w_fields w_flags w_name w_comment w_method w_crc w_date w_time w_iattr w_eattr w_nlen w_xlen] in *.
    apply method_taken in C. rewrite C. cbn [rbind].
    rewrite (proj2 (fields_taken cfg us cs x _) (ex_intro _ l (conj S F))). cbn [rbind]. f_equal. unfold cd_entry_view.
    erewrite (placed_ok us cs off l _ F) in P by reflexivity. unfold cd_sizes, cd_offset.
    cbn [c_flags c_crc c_mod_date c_mod_time c_inter_attr c_exter_attr c_file_name_length c_extra_field_length c_compressed_size c_uncompressed_size c_lh_offset].
    rewrite gp_from_bits. cbn [gp_filename_unicode gp_data_descriptor].
    apply (reads_as_unique XPath _ _ _ (detect_filename name (N.testbit flags 11) (en_extra (st_entry e))) _ ltac:(now injection 1)) in N; [|apply detect_filename_spec].
    apply (reads_as_unique XComment _ _ _ (detect_comment cm (N.testbit flags 11) (en_extra (st_entry e))) _ ltac:(now injection 1)) in Cm; [|apply detect_comment_spec].
    rewrite N, Cm. destruct (get_combined_sizes us cs _) as [us' cs']. injection P as P1 P2 P3. cbn [fst snd]. rewrite <- P1, <- P2, <- P3.
    destruct e as [[fn co lv cr us1 cs1 at1 dt1 ia1 ea1 ex1 cm1 dd1] fo hs].
    cbn [st_entry en_extra en_filename en_comment en_compression en_level en_crc32 
      en_uncompressed_size en_compressed_size st_file_offset en_attr_compat en_date en_iattr en_eattr en_data_descriptor st_header_size] in *.
    subst. f_equal. lia.
Qed.
Lemma exact_inv n d p b s' : read_exact n (src d p) = (Ok b, s') -> n <= len (drop p d) /\ b = take n (drop p d) /\ s' = src d (p + n).
Proof.
  rewrite read_exact_calm. unfold exact_result, avail. cbn [s_data s_pos src]. intros E.
  destruct (n <=? len (drop p d)) eqn:L; [|discriminate]. apply N.leb_le in L. injection E as <- <-. repeat split; [exact L|f_equal; lia].
Qed.
Lemma nums_head k ks l v vs m : nums (k :: ks) l = Some (v :: vs, m) -> v = from_le (take (N.of_nat k) l).
Proof.
  cbn [nums]. destruct (text (N.of_nat k) l) as [[b l']|] eqn:T; [|discriminate]. destruct (nums ks l') as [[vs' r']|]; [|discriminate].
  intros E. injection E as <- _ _. apply text_inv in T as [-> T]. rewrite take_app_exact by easy. apply StrictProofs.value_from.
Qed.
Lemma record_reads cfg d p e s' : cd_record cfg (src d p) = (Ok e, s') ->
  exists r p', s' = src d p' /\ read_row (past p d) r (past p' d) /\ tells r e.
Proof.
  intros E. assert (G : 46 <= len (drop p d) /\ from_le (take 4 (drop p d)) = CDH_SIGNATURE).
  { unfold cd_record in E. apply bind_inv in E as (t & s1 & A & E). unfold assert_signature in A. apply bind_inv in A as (b & s2 & A & C).
    apply exact_inv in A as (L & -> & ->). destruct (from_le _ =? CDH_SIGNATURE) eqn:S; [|discriminate]. apply N.eqb_eq in S.
    unfold ret in C. injection C as <- <-. apply bind_inv in E as (h & s3 & H & _). unfold cdr_from_reader in H. apply bind_inv in H as (b & s4 & H & _).
    apply exact_inv in H as (L' & _ & _). rewrite len_drop in *. split; [lia|exact S]. }
  destruct G as [L S]. destruct (nums_total row17 (drop p d)) as (vs & m & N); [change (widths_of row17) with 46; exact L|].
  pose proof (proj1 (nums_fs _ _ _ _ N)) as Ln. change (length row17) with 17%nat in Ln.
  do 17 (destruct vs as [|? vs]; [discriminate Ln|apply eq_add_S in Ln]). destruct vs; [|discriminate Ln].
  pose proof (nums_head _ _ _ _ _ _ N) as Hd. change (N.of_nat 4) with 4 in Hd. rewrite S in Hd. change CDH_SIGNATURE with 0x02014b50 in Hd. subst n.
  destruct (record_run cfg _ _ _ _ _ _ _ _ _ _ _ _ _ _ _ _ _ _ _ N) as (p' & D & R). apply R in E as [E ->].
  apply row_tells in E as (l & F & T). eexists; exists p'. split; [reflexivity|]. split; [|exact T].
  rewrite !past_drop, D, <- !past_drop, <- !upto_take. rewrite <- past_drop in N. eapply row_here; [exact N|].
  now rewrite upto_take, past_drop.
Qed.
Lemma record_taken cfg d p r m e : read_row (past p d) r m -> tells r e ->
  exists p', cd_record cfg (src d p) = (Ok e, src d p') /\ past p' d = m.
Proof.
  intros R T. destruct R as [made needed flags method time date crc cs us nl xl cl disk ia ea off m xs N F].
  rewrite past_drop in N. destruct (record_run cfg _ _ _ _ _ _ _ _ _ _ _ _ _ _ _ _ _ _ _ N) as (p' & D & R).
  exists p'. split; [|now rewrite !past_drop, D]. apply R. split; [|reflexivity]. apply row_tells. exists xs.
  rewrite <- !past_drop, <- !upto_take. now split.
Qed.
Lemma row_long l r m : read_row l r m -> 46 + len m <= len l.
Proof. intros []. apply nums_long in H. change (widths_of _) with 46 in H. rewrite !len_past. lia. Qed.
Lemma rows_long l rs : rows l rs -> 46 * len rs <= len l.
Proof. induction 1 as [l|l r m rs R _ IH]; [change (len (@nil row)) with 0; lia|]. apply row_long in R. rewrite len_cons. lia. Qed.
Lemma loop_reads cfg d f : forall n p es s', cd_loop cfg f n (src d p) = (Ok es, s') ->
  exists rs, rows (past p d) rs /\ Forall2 tells rs es /\ len rs = n.
Proof.
  induction f as [|f IH]; intros n p es s' E; cbn [cd_loop] in E; [discriminate|].
  destruct (n =? 0) eqn:Z; [apply N.eqb_eq in Z; injection E as <- _; exists []; split; [constructor|now split]|].
  apply bind_inv in E as (e & s1 & R & E). apply bind_inv in E as (r & s2 & L & E). injection E as <- _.
  apply record_reads in R as (w & p' & -> & R & T). apply IH in L as (rs & Rs & F & Ln). exists (w :: rs).
  split; [econstructor; eassumption|]. split; [now constructor|]. apply N.eqb_neq in Z. rewrite len_cons. lia.
Qed.
Lemma loop_taken cfg d f : forall n p rs es, rows (past p d) rs -> Forall2 tells rs es -> len rs = n -> (length rs < f)%nat ->
  exists s', cd_loop cfg f n (src d p) = (Ok es, s').
Proof.
  induction f as [|f IH]; intros n p rs es R F L G; [lia|]. cbn [cd_loop]. destruct F as [|r e rs es T F].
  - subst n. change (len (@nil row) =? 0) with true. cbn [length] in G. unfold ret. eauto.
  - rewrite len_cons in L. replace (n =? 0) with false by (symmetry; apply N.eqb_neq; lia). inversion R as [|l r' m rs' R1 R2]. subst.
    destruct (record_taken cfg _ _ _ _ _ R1 T) as (p' & E & <-). rewrite (bind_ok _ _ _ _ _ E).
    cbn [length] in G. destruct (IH (len rs) p' rs es R2 F eq_refl ltac:(lia)) as [s' E'].
    replace (1 + len rs - 1) with (len rs) by lia. rewrite (bind_ok _ _ _ _ _ E'). unfold ret. eauto.
Qed.
Lemma directory_reads cfg d n p es s' : cd cfg n (src d p) = (Ok es, s') ->
  exists rs, rows (past p d) rs /\ Forall2 tells rs es /\ len rs = n.
Proof.
  intros E. unfold cd in E. apply bind_inv in E as (t & s1 & W & E). unfold lift in W. injection W as _ <-.
  apply bind_inv in E as (s2 & s3 & W & E). unfold get in W. injection W as <- <-. now apply loop_reads in E.
Qed.
Lemma directory_taken cfg d n p rs es : rows (past p d) rs -> Forall2 tells rs es -> len rs = n -> n * entry_mem_size cfg <= isize_max ->
  exists s', cd cfg n (src d p) = (Ok es, s').
Proof.
  intros R F L C. unfold cd. apply N.leb_le in C. unfold with_capacity. rewrite C.
  rewrite (bind_ok (lift (Ok tt)) _ _ tt (src d p) eq_refl). rewrite (bind_ok get _ _ (src d p) (src d p) eq_refl).
  cbn [s_data src]. eapply loop_taken; [exact R|exact F|exact L|]. apply rows_long in R. rewrite len_past in R. unfold len in *. lia.
Qed.
Lemma nums_step k ks l v vs m : nums (k :: ks) l = Some (v :: vs, m) <->
  N.of_nat k <= len l /\ v = from_le (take (N.of_nat k) l) /\ nums ks (drop (N.of_nat k) l) = Some (vs, m).
Proof.
  split.
  - intros E. pose proof (nums_head _ _ _ _ _ _ E) as H. cbn [nums] in E.
    destruct (text (N.of_nat k) l) as [[b l']|] eqn:T; [|discriminate]. destruct (nums ks l') as [[vs' r']|] eqn:N; [|discriminate].
    injection E as _ <- <-. apply text_inv in T as [-> T]. rewrite len_app, drop_app_exact by easy. split; [lia|now split].
  - intros (L & -> & N). cbn [nums]. destruct (split_at (N.of_nat k) l) as (a & b & -> & E); [lia|].
    rewrite drop_app_exact in N by easy. rewrite take_app_exact by easy. rewrite <- E at 1. rewrite text_app, N. reflexivity.
Qed.
Lemma end_nums l d1 d2 n1 n2 size off cl rest : nums [2; 2; 2; 2; 4; 4; 2]%nat l = Some ([d1; d2; n1; n2; size; off; cl], rest) ->
  rest = drop 18 l /\
  eocdr_from (take 18 l) = {| e_disk_num := d1; e_start_cent_dir_disk := d2; e_num_of_entries_disk := n1; e_num_of_entries := n2;
     e_size_cent_dir := size; e_cent_dir_offset := off; e_file_comm_length := cl |}.
Proof.
  intros N. apply nums_fs in N as (_ & -> & W). cbn [List.combine] in *. rewrite drop_app_exact, take_app_exact by reflexivity.
  split; [reflexivity|]. apart_widths. unfold record. cbn [map concat fst snd]. rewrite !le_to_le. rewrite app_nil_r.
  change (to_le 2 d1 ++ to_le 2 d2 ++ to_le 2 n1 ++ to_le 2 n2 ++ to_le 4 size ++ to_le 4 off ++ to_le 2 cl) with (end_body d1 d2 n1 n2 size off cl).
  apply end_body_from; assumption.
Qed.
Lemma locator_nums l k lo n rest : nums [4; 8; 4]%nat l = Some ([k; lo; n], rest) ->
  rest = drop 16 l /\ z64_eocdl_from (take 16 l) = {| zl_disk := k; zl_relative_offset := lo; zl_total_disks := n |}.
Proof.
  intros N. apply nums_fs in N as (_ & -> & W). cbn [List.combine] in *. rewrite drop_app_exact, take_app_exact by reflexivity.
  split; [reflexivity|]. apart_widths. unfold record. cbn [map concat fst snd]. rewrite !le_to_le. rewrite app_nil_r.
  change (to_le 4 k ++ to_le 8 lo ++ to_le 4 n) with (z64_eocdl_as_bytes {| zl_disk := k; zl_relative_offset := lo; zl_total_disks := n |}).
  apply z64_eocdl_roundtrip. repeat split; assumption.
Qed.
Lemma z64_nums l size mb nd d1 d2 n1 n2 sz off rest : nums [8; 2; 2; 4; 4; 8; 8; 8; 8]%nat l = Some ([size; mb; nd; d1; d2; n1; n2; sz; off], rest) ->
  rest = drop 52 l /\ z64_eocdr_from (take 52 l) = zip64_body size mb nd d1 d2 n1 n2 sz off.
Proof.
  intros N. apply nums_fs in N as (_ & -> & W). cbn [List.combine] in *. rewrite drop_app_exact, take_app_exact by reflexivity.
  split; [reflexivity|]. apart_widths. unfold record. cbn [map concat fst snd]. rewrite !le_to_le. rewrite app_nil_r.
  etransitivity; [|apply z64_eocdr_roundtrip; repeat split; assumption]. reflexivity.
Qed.
Lemma signature_at S d p : S < 4294967296 -> found_at (le 4 S) d p <-> 4 <= len (drop p d) /\ from_le (take 4 (drop p d)) = S.
Proof.
  intros B. rewrite le_to_le. change (found_at (to_le 4 S) d p) with (occurs (to_le 4 S) d p). rewrite occurs_iff, len_to_le, len_drop. change (N.of_nat 4) with 4.
  split; intros [L E].
  - split; [lia|]. rewrite E. now apply from_to_le4.
  - split; [lia|]. rewrite <- E. symmetry. etransitivity; [|apply to_from_le]. f_equal.
    assert (H : len (take 4 (drop p d)) = 4) by (rewrite len_take, len_drop; lia). unfold len in H. lia.
Qed.
Lemma end_nums_at d at_ : found_at (le 4 0x06054b50) d at_ -> 18 <= len (drop (at_ + 4) d) ->
  exists d1 d2 n1 n2 size off cl, nums [4; 2; 2; 2; 2; 4; 4; 2]%nat (past at_ d) = Some ([0x06054b50; d1; d2; n1; n2; size; off; cl], drop 18 (drop (at_ + 4) d)) /\
    eocdr_from (take 18 (drop (at_ + 4) d)) = {| e_disk_num := d1; e_start_cent_dir_disk := d2; e_num_of_entries_disk := n1; e_num_of_entries := n2;
     e_size_cent_dir := size; e_cent_dir_offset := off; e_file_comm_length := cl |}.
Proof.
  intros S L. apply signature_at in S as [S1 S2]; [|reflexivity].
  destruct (nums_total [2; 2; 2; 2; 4; 4; 2]%nat (drop (at_ + 4) d)) as (vs & m & N); [exact L|].
  pose proof (proj1 (nums_fs _ _ _ _ N)) as Ln. do 7 (destruct vs as [|? vs]; [discriminate Ln|apply eq_add_S in Ln]). destruct vs; [|discriminate Ln].
  pose proof (end_nums _ _ _ _ _ _ _ _ _ N) as [-> H]. do 7 eexists. split; [|exact H]. rewrite past_drop. apply nums_step.
  change (N.of_nat 4) with 4. split; [exact S1|]. split; [now symmetry|]. now rewrite drop_drop.
Qed.
Lemma uadd_mod cfg a p : uadd cfg a 4 = Ok p -> p = (a + 4) mod 0x10000000000000000.
Proof.
  unfold uadd. destruct (a + 4 <=? u64_max) eqn:E.
  - intros X. injection X as <-. apply N.leb_le in E. symmetry. apply N.mod_small. unfold u64_max in E. lia.
  - destruct (overflow_checks cfg); [discriminate|]. intros X. injection X as <-. reflexivity.
Qed.
Lemma file_end_reads cfg d p0 f s' : file cfg (src d p0) = (Ok f, s') ->
  exists x, ends d x /\ (f_zip64 f = match n_locator x with Some _ => true | None => false end) /\ f_comment f = zs_new (n_comment x) EUtf8 /\
    exists s1, cd cfg (n_count x) (src d (n_offset x)) = (Ok (f_entries f), s1).
Proof.
  intros E. unfold file in E. apply bind_inv in E as (q & s1 & Q & E).
  assert (Q' : locate d p0 = Ok q) by (unfold locate; now rewrite Q).
  destruct (eocdr_locate_calm _ _ _ Q') as [p1 P1]. rewrite P1 in Q. injection Q as <-.
  destruct (locate_spec d p0) as [(q' & Hq & Q4 & O & Last)|(H & _)]; [|congruence]. rewrite Q' in Hq. injection Hq as <-.
  rewrite (bind_ok _ _ _ _ _ (seek_start_src q d p1)) in E. apply bind_inv in E as (eo & s1 & R & E).
  unfold eocdr_from_reader in R. apply bind_inv in R as (b & s2 & R & R'). apply exact_inv in R as (L & -> & ->).
  unfold ret in R'. injection R' as <- <-.
  replace q with (q - 4 + 4) in L by lia. destruct (end_nums_at d (q - 4)) as (d1 & d2 & n1 & n2 & size & off & cl & N & B);
    [exact O|exact L|]. replace (q - 4 + 4) with q in N, B, L by lia. rewrite B in E.
  unfold read_string in E. cbn [e_file_comm_length] in E.
  apply bind_inv in E as (cm & s1 & C & E). apply bind_inv in C as (b & s2 & C & C'). rewrite read_bytes_calm in C. injection C as <- <-.
  unfold ret in C'. injection C' as <- <-. rewrite drop_drop in N.
  change (ZIP64_EOCDL_LENGTH + SIGNATURE_LENGTH) with 24 in E.
  apply bind_inv in E as ([comb z] & s1 & Z & E).
  set (cm := take cl (drop (q + 18) d)) in *.
  assert (K : exists loc n o, ends d {| n_at := q - 4; n_locator := loc; n_count := n; n_offset := o; n_comment := cm |} /\
    z = match loc with Some _ => true | None => false end /\ cb_disk_number comb = cb_disk_number_start_of_cd comb /\
    cb_num_entries comb = cb_num_entries_on_disk comb /\ cb_offset comb = o /\ cb_num_entries comb = n /\ exists pz, s1 = src d pz).
  { assert (G : cb_disk_number comb = cb_disk_number_start_of_cd comb /\ cb_num_entries comb = cb_num_entries_on_disk comb).
    { destruct (cb_disk_number comb =? _) eqn:G1; [|discriminate]. destruct (cb_num_entries comb =? _) eqn:G2; [|discriminate].
      apply N.eqb_eq in G1, G2. now split. }
    destruct G as [G1 G2].
    destruct (q <? 24) eqn:Q24.
    - apply N.ltb_lt in Q24. unfold ret in Z. injection Z as <- <- <-. exists None, n2, off. split; [|repeat split; try assumption; now eexists].
      split; [exact Last|]. exists d1, d2, n1, n2, size, off, cl. eexists. split; [exact N|]. cbn [n_comment n_locator n_at n_count n_offset].
      split; [unfold cm; now rewrite upto_take|]. split; [lia|]. cbn [combined_from cb_disk_number cb_disk_number_start_of_cd cb_num_entries
        cb_num_entries_on_disk e_disk_num e_start_cent_dir_disk e_num_of_entries_disk e_num_of_entries] in G1, G2. now repeat split.
    - apply N.ltb_ge in Q24. rewrite (bind_ok _ _ _ _ _ (seek_start_src _ d _)) in Z. apply bind_inv in Z as (loc & s3 & Lc & Z).
      unfold z64_eocdl_try_from_reader in Lc. apply bind_inv in Lc as (b & s4 & R & Lc). apply exact_inv in R as (L4 & -> & ->).
      destruct (from_le (take 4 (drop (q - 24) d)) =? ZIP64_EOCDL_SIGNATURE) eqn:Sg; cbn [negb] in Lc.
      + apply N.eqb_eq in Sg. apply bind_inv in Lc as (b & s4 & R & Lc). apply exact_inv in R as (L16 & -> & ->).
        unfold ret in Lc. injection Lc as <- <-. 
        destruct (nums_total [4; 8; 4]%nat (drop (q - 24 + 4) d)) as (vs & m & NL); [exact L16|].
        pose proof (proj1 (nums_fs _ _ _ _ NL)) as Ln. do 3 (destruct vs as [|? vs]; [discriminate Ln|apply eq_add_S in Ln]). destruct vs; [|discriminate Ln].
        pose proof (locator_nums _ _ _ _ _ NL) as [-> HL]. rewrite HL in Z. cbn [zl_relative_offset] in Z.
        apply bind_inv in Z as (pz & s4 & U & Z). unfold lift in U. injection U as U <-. apply uadd_mod in U.
        rewrite (bind_ok _ _ _ _ _ (seek_start_src _ d _)) in Z. apply bind_inv in Z as (zr & s5 & R & Z). unfold ret in Z. injection Z as <- <- <-.
        unfold z64_eocdr_from_reader in R. apply bind_inv in R as (b & s4 & R & R'). apply exact_inv in R as (L52 & -> & ->).
        unfold ret in R'. injection R' as <- <-.
        destruct (nums_total [8; 2; 2; 4; 4; 8; 8; 8; 8]%nat (drop pz d)) as (vs & m & NZ); [exact L52|].
        pose proof (proj1 (nums_fs _ _ _ _ NZ)) as Lz. do 9 (destruct vs as [|? vs]; [discriminate Lz|apply eq_add_S in Lz]). destruct vs; [|discriminate Lz].
        pose proof (z64_nums _ _ _ _ _ _ _ _ _ _ _ NZ) as [-> HZ]. rewrite HZ in *. subst pz.
        eexists (Some _), (chosen 0xFFFF n2 _), (chosen 0xFFFFFFFF off _).
        split; [|split; [reflexivity|]; split; [exact G1|]; split; [exact G2|]; split; [reflexivity|]; split; [reflexivity|now eexists]].
        split; [exact Last|]. exists d1, d2, n1, n2, size, off, cl. eexists. split; [exact N|]. cbn [n_comment n_locator n_at n_count n_offset].
        split; [unfold cm; now rewrite upto_take|]. split; [lia|]. do 13 eexists. split.
        { apply nums_step. change (N.of_nat 4) with 4. replace (q - 4 - 20) with (q - 24) by lia. rewrite past_drop. split; [exact L4|].
          split; [now symmetry|]. rewrite drop_drop. exact NL. }
        split; [rewrite past_drop; exact NZ|]. split; [exact G1|]. split; [symmetry; exact G2|]. now split.
      + apply N.eqb_neq in Sg. unfold ret in Lc. injection Lc as <- <-. unfold ret in Z. injection Z as <- <- <-.
        exists None, n2, off. split; [|repeat split; try assumption; now eexists].
        split; [exact Last|]. exists d1, d2, n1, n2, size, off, cl. eexists. split; [exact N|]. cbn [n_comment n_locator n_at n_count n_offset].
        split; [unfold cm; now rewrite upto_take|]. split.
        { intros _ F. replace (q - 4 - 20) with (q - 24) in F by lia. apply signature_at in F as [_ F]; [|reflexivity]. now apply Sg. }
        cbn [combined_from cb_disk_number cb_disk_number_start_of_cd cb_num_entries
        cb_num_entries_on_disk e_disk_num e_start_cent_dir_disk e_num_of_entries_disk e_num_of_entries] in G1, G2. now repeat split. }
  destruct K as (loc & n & o & X & -> & G1 & G2 & Ho & Hn & pz & ->). rewrite G1, N.eqb_refl, G2, N.eqb_refl in E. cbn [negb orb] in E.
  rewrite <- G2, Ho, Hn in E. rewrite (bind_ok _ _ _ _ _ (seek_start_src _ d _)) in E. apply bind_inv in E as (es & s3 & D & E).
  unfold ret in E. injection E as <- <-. eexists. split; [exact X|]. cbn [n_locator n_comment n_count n_offset f_zip64 f_comment f_entries].
  split; [reflexivity|]. split; [reflexivity|]. eauto.
Qed.
Lemma file_reads cfg s f : fst (file cfg s) = Ok f -> exists x rs, says (s_data s) x rs /\ reports x rs f.
Proof.
  intros E. destruct (file_faults cfg s) as [F|(c & _ & F)]; [|congruence]. rewrite F in E. clear F. unfold cursor in E.
  fold (src (s_data s) 0) in E. destruct (file cfg (src (s_data s) 0)) as [r s'] eqn:R. cbn [fst] in E. subst r.
  apply file_end_reads in R as (x & X & Z & C & s1 & D). apply directory_reads in D as (rs & Rs & T & L).
  exists x, rs. split; [exact (conj X (conj Rs L))|]. split; [exact T|]. split; [exact Z|]. rewrite C. apply zs_comment.
Qed.
Lemma comment_unique c z z' : comment_reads_as c z -> comment_reads_as c z' -> z = z'.
Proof. intros [] []; (reflexivity || contradiction). Qed.
Lemma directory_says cfg d c z k p rs es :
  cb_disk_number c = cb_disk_number_start_of_cd c -> cb_num_entries c = cb_num_entries_on_disk c ->
  rows (past (cb_offset c) d) rs -> Forall2 tells rs es -> len rs = cb_num_entries c -> cb_num_entries c * entry_mem_size cfg <= isize_max ->
  fst (ReaderFacts.directory cfg c z k (src d p)) = Ok {| f_entries := es; f_zip64 := z; f_comment := k |}.
Proof.
  intros H1 H2 R T L C. unfold ReaderFacts.directory. rewrite H1, N.eqb_refl, <- H2, N.eqb_refl. cbn [negb orb].
  rewrite (bind_ok _ _ _ _ _ (seek_start_src _ d p)). destruct (directory_taken cfg d _ _ _ _ R T L C) as [s' E].
  now rewrite (bind_ok _ _ _ _ _ E).
Qed.
Lemma file_takes cfg s x rs f : nofail (s_sched s) -> says (s_data s) x rs -> reports x rs f ->
  len (s_data s) <= n_at x + 65557 -> n_count x * entry_mem_size cfg <= isize_max ->
  match n_locator x with Some lo => lo + 4 < 0x10000000000000000 | None => True end ->
  fst (file cfg s) = Ok f.
Proof.
  intros Nf ((Last & d1 & d2 & n1 & n2 & size & off & cl & rest & N & Cm & M) & Rs & Ln) (T & Z & C) Far Cap Lo.
  rewrite file_nofail by exact Nf. unfold cursor. set (d := s_data s) in *. clearbody d. clear Nf s. change (fst (file cfg (src d 0)) = Ok f).
  rewrite past_drop in N. apply nums_step in N as (S1 & S2 & N). change (N.of_nat 4) with 4 in *. rewrite drop_drop in N.
  set (q := n_at x + 4) in *. assert (O : occurs EOCDR_SIG d (n_at x)).
  { change (found_at (le 4 0x06054b50) d (n_at x)). apply signature_at; [reflexivity|]. now split. }
  assert (HL : locate d 0 = Ok q).
  { apply locate_last; [exact O|exact Last|lia]. }
  pose proof (nums_long _ _ _ _ N) as NL. change (widths_of _) with 18 in NL.
  pose proof (end_nums _ _ _ _ _ _ _ _ _ N) as [-> B]. clear N.
  assert (E : drop q d = take 18 (drop q d) ++ drop 18 (drop q d)) by (symmetry; apply take_drop).
  assert (L18 : len (take 18 (drop q d)) = 18) by (rewrite len_take; lia).
  rewrite upto_take in Cm.
  apply (comment_unique _ (zs_new (n_comment x) EUtf8)) in C; [|apply zs_comment].
  assert (Ef : f = {| f_entries := f_entries f; f_zip64 := match n_locator x with Some _ => true | None => false end; f_comment := zs_new (n_comment x) EUtf8 |}).
  { rewrite C, <- Z. now destruct f. }
  destruct (n_locator x) as [lo|] eqn:Loc.
  - destruct M as (A20 & ldisk & disks & more & zsize & mb & nd & z1 & z2 & zn1 & zn2 & zsz & zoff & e64 & NLo & NZ & K1 & K2 & K3 & K4).
    rewrite past_drop in NLo, NZ. apply nums_step in NLo as (T1 & T2 & NLo). change (N.of_nat 4) with 4 in *. rewrite drop_drop in NLo.
    pose proof (nums_long _ _ _ _ NLo) as LLo. change (widths_of _) with 16 in LLo. pose proof (locator_nums _ _ _ _ _ NLo) as [-> HLo].
    rewrite N.mod_small in NZ by exact Lo. pose proof (nums_long _ _ _ _ NZ) as LZ. change (widths_of _) with 52 in LZ.
    pose proof (z64_nums _ _ _ _ _ _ _ _ _ _ _ NZ) as [-> HZ].
    rewrite (file_zip64_rest cfg d 0 q _ _ (take 16 (drop (n_at x - 20 + 4) d)) (take 52 (drop (lo + 4) d)) (drop 16 (drop (n_at x - 20 + 4) d)) (drop 52 (drop (lo + 4) d)) HL E L18).
    + rewrite B, HZ. cbn [e_file_comm_length]. rewrite <- Cm. rewrite Ef.
      eapply directory_says with (rs := rs); cbn [combine combined_from cb_disk_number cb_disk_number_start_of_cd cb_num_entries cb_num_entries_on_disk cb_offset zip64_body
        z_disk_number z_disk_number_start_of_cd z_num_entries_on_disk z_num_entries z_offset e_disk_num e_start_cent_dir_disk e_num_of_entries_disk e_num_of_entries e_cent_dir_offset];
        unfold chosen in *.
      * exact K1.
      * now symmetry.
      * rewrite <- K4. exact Rs.
      * exact T.
      * now rewrite <- K3.
      * now rewrite <- K3.
    + lia.
    + replace (q - 24) with (n_at x - 20) by lia. rewrite <- drop_drop, take_drop. rewrite <- (take_drop 4 (drop (n_at x - 20) d)) at 1. f_equal.
      assert (F : found_at (le 4 0x07064b50) d (n_at x - 20)) by (apply signature_at; [reflexivity|now split]).
      change (occurs (to_le 4 ZIP64_EOCDL_SIGNATURE) d (n_at x - 20)) in F. apply occurs_iff in F as [_ F]. exact F.
    + rewrite len_take. lia.
    + rewrite HLo. cbn [zl_relative_offset]. unfold u64_max. lia.
    + rewrite HLo. cbn [zl_relative_offset]. now rewrite take_drop.
    + rewrite len_take. lia.
  - destruct M as (M & K1 & K2 & K3 & K4). rewrite (file_classic_rest cfg d 0 q _ _ HL E L18).
    + rewrite B. cbn [e_file_comm_length]. rewrite <- Cm. rewrite Ef.
      eapply directory_says with (rs := rs); cbn [combined_from cb_disk_number cb_disk_number_start_of_cd cb_num_entries cb_num_entries_on_disk cb_offset
        e_disk_num e_start_cent_dir_disk e_num_of_entries_disk e_num_of_entries e_cent_dir_offset].
      * exact K1.
      * now symmetry.
      * rewrite <- K4. exact Rs.
      * exact T.
      * now rewrite <- K2, <- K3.
      * now rewrite <- K2, <- K3.
    + intros G F. replace (q - 24) with (n_at x - 20) in F by lia. apply M in F; [exact F|lia].
Qed.

(** ** There is one reading *)
Lemma row_unique l r m : read_row l r m -> forall r' m', read_row l r' m' -> r = r' /\ m = m'.
Proof.
  intros R r' m' R'. destruct R as [? ? ? ? ? ? ? ? ? ? ? ? ? ? ? ? ? ? N F]. destruct R' as [? ? ? ? ? ? ? ? ? ? ? ? ? ? ? ? ? ? N' F'].
  rewrite N in N'. injection N' as <- <- <- <- <- <- <- <- <- <- <- <- <- <- <- <- <-.
  rewrite (some_fields_unique _ _ F _ F'). now split.
Qed.
Lemma rows_unique l rs : rows l rs -> forall rs', rows l rs' -> len rs = len rs' -> rs = rs'.
Proof.
  induction 1 as [l|l r m rs R _ IH]; intros rs' R' L; destruct R' as [l|l r' m' rs' R1 R2]; try reflexivity;
    rewrite ?len_cons in L; try (change (len (@nil row)) with 0 in L; lia).
  destruct (row_unique _ _ _ R _ _ R1) as [<- <-]. f_equal. apply IH; [exact R2|lia].
Qed.
Lemma ends_found d x : ends d x -> found_at (le 4 0x06054b50) d (n_at x).
Proof.
  intros (_ & d1 & d2 & n1 & n2 & size & off & cl & rest & N & _). rewrite past_drop in N. apply nums_step in N as (L & S & _).
  apply signature_at; [reflexivity|]. now split.
Qed.
Lemma ends_unique d x x' : ends d x -> ends d x' -> x = x'.
Proof.
  intros X X'. pose proof (ends_found _ _ X) as O. pose proof (ends_found _ _ X') as O'.
  destruct X as (La & d1 & d2 & n1 & n2 & size & off & cl & rest & N & C & M).
  destruct X' as (La' & d1' & d2' & n1' & n2' & size' & off' & cl' & rest' & N' & C' & M').
  assert (A : n_at x = n_at x') by (apply La in O'; apply La' in O; lia).
  rewrite <- A in *. rewrite N in N'. injection N' as <- <- <- <- <- <- <- <-. rewrite <- C in C'.
  assert (LF : forall lo a b more, nums [4; 4; 8; 4]%nat (past (n_at x - 20) d) = Some ([0x07064b50; a; lo; b], more) -> found_at (le 4 0x07064b50) d (n_at x - 20)).
  { intros lo a b more H. rewrite past_drop in H. apply nums_step in H as (L & S & _). apply signature_at; [reflexivity|]. now split. }
  destruct x as [at1 lo1 c1 o1 k1], x' as [at2 lo2 c2 o2 k2]. cbn [n_at n_locator n_count n_offset n_comment] in *. subst at2 k2.
  destruct lo1 as [lo|], lo2 as [lo'|].
  - destruct M as (A20 & ldisk & disks & more & zsize & mb & nd & z1 & z2 & zn1 & zn2 & zsz & zoff & e64 & NLo & NZ & K1 & K2 & -> & ->).
    destruct M' as (_ & ldisk' & disks' & more' & zsize' & mb' & nd' & z1' & z2' & zn1' & zn2' & zsz' & zoff' & e64' & NLo' & NZ' & K1' & K2' & -> & ->).
    rewrite NLo in NLo'. injection NLo' as <- <- <- <-. rewrite NZ in NZ'. injection NZ' as <- <- <- <- <- <- <- <- <- <-. reflexivity.
  - destruct M as (A20 & ldisk & disks & more & zsize & mb & nd & z1 & z2 & zn1 & zn2 & zsz & zoff & e64 & NLo & _). apply LF in NLo.
    destruct M' as (M' & _). now elim (M' A20).
  - destruct M' as (A20 & ldisk & disks & more & zsize & mb & nd & z1 & z2 & zn1 & zn2 & zsz & zoff & e64 & NLo & _). apply LF in NLo.
    destruct M as (M & _). now elim (M A20).
  - destruct M as (_ & _ & _ & -> & ->). destruct M' as (_ & _ & _ & -> & ->). reflexivity.
Qed.
Lemma says_unique d x rs x' rs' : says d x rs -> says d x' rs' -> x = x' /\ rs = rs'.
Proof.
  intros (X & R & L) (X' & R' & L'). pose proof (ends_unique _ _ _ X X') as <-. split; [reflexivity|].
  apply (rows_unique _ _ R _ R'). congruence.
Qed.

Lemma file_exact cfg s x rs : nofail (s_sched s) -> says (s_data s) x rs ->
  len (s_data s) <= n_at x + 65557 -> n_count x * entry_mem_size cfg <= isize_max ->
  match n_locator x with Some lo => lo + 4 < 0x10000000000000000 | None => True end ->
  forall f, fst (file cfg s) = Ok f <-> reports x rs f.
Proof.
  intros N S L C O f. split; [|intros R; exact (file_takes cfg s x rs f N S R L C O)].
  intros E. destruct (file_reads cfg s f E) as (x' & rs' & S' & R). destruct (says_unique _ _ _ _ _ S S') as [<- <-]. exact R.
Qed.

(** ** Sizes *)
Lemma total_app {A} (f : A -> N) a b : total f (a ++ b) = total f a + total f b.
Proof. induction a as [|x a IH]; cbn [total app]; lia. Qed.
Lemma fields_size x l : some_fields x l -> total (fun f => 4 + len (snd f)) l <= len x.
Proof.
  induction 1 as [x L|x id n m p r xs L N T _ IH]; cbn [total]; [lia|]. apply nums_long in N. change (widths_of _) with 4 in N.
  apply text_inv in T as [-> T]. rewrite len_app in N. cbn [snd]. lia.
Qed.
Lemma field_size_le us cs f x : field_is us cs f x -> field_size x <= len (snd f).
Proof.
  destruct f as [id p]. unfold field_is. cbn [fst snd].
  destruct x as [z|[c t|v t]|[c t|v t]|id' n c]; cbn [field_size]; [lia| | | | |];
    try (intros (_ & -> & _); unfold spec_unicode; rewrite ?len_app, ?len_le; lia).
  intros (_ & _ & _ & _ & _ & ->). lia.
Qed.
Lemma fields_size_le us cs l xs : Forall2 (field_is us cs) l xs -> total field_size xs <= total (fun f => len (snd f)) l.
Proof. induction 1 as [|f x l xs F _ IH]; cbn [total]; [lia|]. apply field_size_le in F. lia. Qed.
Definition of_kind (mk : unicode_field -> extra_field) (x : extra_field) : N :=
  match x with XPath _ => (match mk (UV1 0 []) with XPath _ => field_size x | _ => 0 end)
  | XComment _ => (match mk (UV1 0 []) with XComment _ => field_size x | _ => 0 end) | _ => 0 end.
Lemma text_size_le mk flag xs basic z : mk = XPath \/ mk = XComment -> reads_as mk flag xs basic z ->
  text_size z <= len basic + total (of_kind mk) xs.
Proof.
  intros K [ | |pre t post _ -> _ _| | ]; unfold text_size; cbn [zs_raw zs_alt]; try lia.
  rewrite total_app. cbn [total]. destruct K as [-> | ->]; cbn [of_kind field_size]; lia.
Qed.
Lemma kinds_le xs : total (of_kind XPath) xs + total (of_kind XComment) xs <= total field_size xs.
Proof. induction xs as [|[z|u|u|i n c] xs IH]; cbn [total of_kind]; lia. Qed.
Lemma row_size l r m e : read_row l r m -> tells r e -> 46 + entry_size (st_entry e) + 2 * len m <= 2 * len l.
Proof.
  intros R (F & Nm & C & _). destruct R as [made needed flags method time date crc cs us nl xl cl disk ia ea off m xs Nu S].
  cbn [w_usize w_csize w_fields w_name w_comment w_flags] in *. apply nums_long in Nu. change (widths_of _) with 46 in Nu.
  apply text_size_le in Nm; [|now left]. apply text_size_le in C; [|now right].
  pose proof (kinds_le (en_extra (st_entry e))) as K. apply fields_size in S. apply fields_size_le in F. unfold entry_size.
  assert (P : total (fun f : N * bytes => len (snd f)) xs <= total (fun f => 4 + len (snd f)) xs) by (clear; induction xs; cbn [total]; lia).
  rewrite upto_take, len_take in S, Nm, C. rewrite !len_past in *. lia.
Qed.
Lemma rows_size l rs : rows l rs -> forall es, Forall2 tells rs es -> total (fun e => 46 + entry_size (st_entry e)) es <= 2 * len l.
Proof.
  induction 1 as [l|l r m rs R _ IH]; intros es F; inversion F as [|r' e rs' es' T F' E1 E2]; subst; cbn [total]; [lia|].
  apply IH in F'. pose proof (row_size _ _ _ _ R T). lia.
Qed.
Lemma tells_len rs es : Forall2 tells rs es -> len rs = len es.
Proof. induction 1; rewrite ?len_cons; [reflexivity|lia]. Qed.
Lemma file_size cfg s f : fst (file cfg s) = Ok f ->
  46 * len (f_entries f) <= len (s_data s) /\
  total (fun e => 46 + entry_size (st_entry e)) (f_entries f) <= 2 * len (s_data s) /\ 22 + text_size (f_comment f) <= len (s_data s).
Proof.
  intros E. apply file_reads in E as (x & rs & (X & R & L) & T & _ & C). pose proof (rows_long _ _ R) as Lg. pose proof (rows_size _ _ R _ T) as Sz.
  rewrite len_past in Lg, Sz. split; [rewrite <- (tells_len _ _ T); lia|]. split; [lia|].
  destruct X as (_ & d1 & d2 & n1 & n2 & size & off & cl & rest & N & K & _). apply nums_long in N. change (widths_of _) with 22 in N.
  rewrite len_past in N. assert (text_size (f_comment f) = len (n_comment x)) as -> by (destruct C; unfold text_size; cbn [zs_raw zs_alt]; lia).
  rewrite K, upto_take, len_take. lia.
Qed.
