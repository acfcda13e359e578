(** Proofs: the stream reader reports exactly the local header. *)
From Verif Require Import Base BaseFacts SpecFormat SpecCrc SpecUtf8 SpecArchive SpecRead SpecStrict SpecExact Crc32 CrcFacts Utf8 Utf8Facts ZString ZDate
  Headers HeadersFacts ExtraField ExtraFieldFacts Entry IO IOFacts Reader ReaderFacts OpenFacts TameFacts LfhFacts EntryReader EntryProofs ReadProofs StreamReader
  StrictProofs SpecAccept AcceptProofs ExactProofs.
Arguments N.mul : simpl never.
Arguments N.add : simpl never.
Arguments N.sub : simpl never.
Arguments N.min : simpl never.

Lemma sizes_ok us cs l xs : Forall2 (field_is us cs) l xs -> forall t, tp_usize t = us -> tp_csize t = cs -> tp_fields t = l ->
  sizes_told t = get_combined_sizes us cs (get_zip64_extra_field xs).
Proof.
  intros F t <- <- <-. rewrite (zip64_found _ _ _ _ F). unfold sizes_told. destruct (zip64_of (tp_fields t)) as [p|]; cbn [option_map].
  - unfold zip64_by, get_combined_sizes. destruct (next8 (tp_usize t =? _) p) as [u p1]. destruct (next8 (tp_csize t =? _) p1) as [c p2].
    destruct (next8 true p2) as [o p3]. reflexivity.
  - unfold next8. change (8 <=? len (@nil byte)) with false. now rewrite !Bool.andb_false_r.
Qed.
Definition top11 : list nat := [4; 2; 2; 2; 2; 2; 4; 4; 4; 2; 2]%nat.
Lemma top_run cfg d p needed flags method time date crc cs us nl xl m :
  nums top11 (drop p d) = Some ([0x04034b50; needed; flags; method; time; date; crc; cs; us; nl; xl], m) ->
  let h := {| l_version := needed; l_flags := gp_from flags; l_compression := method; l_mod_time := time;
     l_mod_date := date; l_crc := crc; l_compressed_size := cs; l_uncompressed_size := us; l_file_name_length := nl;
     l_extra_field_length := xl |} in
  exists p', drop p' d = drop xl (drop nl m) /\
    forall o s', lfh_read cfg (src d p) = (Ok o, s') <-> lfh_view cfg h (take nl m) (take xl (drop nl m)) = Ok o /\ s' = src d p'.
Proof.
  intros N h. apply nums_fs in N as (_ & E & W). unfold top11 in E, W. cbn [List.combine] in E, W.
  set (body := record [(2%nat, needed); (2%nat, flags); (2%nat, method); (2%nat, time); (2%nat, date); (4%nat, crc); (4%nat, cs); (4%nat, us);
    (2%nat, nl); (2%nat, xl)]).
  assert (H : lfh_from body = h).
  { apart_widths. unfold body, record. cbn [map concat fst snd]. rewrite !le_to_le. apply lfh_from_fields; assumption. }
  assert (L : len body = 26) by reflexivity.
  assert (E4 : drop p d = to_le 4 LFH_SIGNATURE ++ body ++ m).
  { rewrite E. unfold body, record. cbn [map concat fst snd]. rewrite !le_to_le. now rewrite <- !app_assoc. }
  clearbody body. clear E W. pose proof (drop_step 4 _ _ _ _ E4 (len_to_le 4 _)) as E5. pose proof (drop_step 26 _ _ _ _ E5 L) as E6.
  set (q := p + 4 + 26) in *.
  set (q1 := q + N.min nl (len (drop q d))). set (q2 := q1 + N.min xl (len (drop q1 d))).
  assert (D1 : drop q1 d = drop nl m) by (unfold q1; now rewrite drop_read, E6).
  assert (D2 : drop q2 d = drop xl (drop nl m)) by (unfold q2; now rewrite drop_read, D1).
  exists q2. split; [exact D2|]. intros o s'. unfold lfh_read.
  rewrite (bind_ok _ _ _ _ _ (read_exact_here 4 d p _ _ E4 (len_to_le 4 _))).
  rewrite from_to_le4 by reflexivity. cbv zeta.
  change (LFH_SIGNATURE =? CDH_SIGNATURE) with false. change (negb (LFH_SIGNATURE =? LFH_SIGNATURE)) with false. cbv iota.
  rewrite (bind_ok _ _ _ _ _ (lfh_from_reader_here d _ _ _ E5 L)). rewrite H. fold q.
  rewrite (bind_ok _ _ _ _ _ (read_bytes_calm (l_file_name_length h) d q)). change (l_file_name_length h) with nl. fold q1. rewrite E6.
  rewrite bind_lift. unfold lfh_view. change (l_compression h) with method. destruct (compression_try_from method) as [c|x|x]; cbn [rbind];
    [|split; [discriminate|intros [B _]; discriminate B]..].
  rewrite (bind_ok _ _ _ _ _ (read_bytes_calm (l_extra_field_length h) d q1)). change (l_extra_field_length h) with xl. fold q2. rewrite D1.
  rewrite bind_lift. destruct (parse_extra_fields _ _ _ _) as [xs|x|x]; cbn [rbind]; [|split; [discriminate|intros [B _]; discriminate B]..].
  unfold lfh_entry. destruct (get_combined_sizes _ _ _) as [us' cs']. cbn [fst snd].
  destruct (_ && _); [split; [discriminate|intros [B _]; discriminate B]|].
  destruct (gp_encrypted _); [split; [discriminate|intros [B _]; discriminate B]|]. unfold ret.
  split; [intros X; injection X as <- <-; split; [|reflexivity]|intros [X ->]; injection X as <-]; reflexivity.
Qed.
Lemma top_view cfg needed flags method time date crc cs us nl xl name x e :
  lfh_view cfg {| l_version := needed; l_flags := gp_from flags; l_compression := method; l_mod_time := time;
     l_mod_date := date; l_crc := crc; l_compressed_size := cs; l_uncompressed_size := us; l_file_name_length := nl;
     l_extra_field_length := xl |} name x = Ok (Some e) <->
  exists l, some_fields x l /\
    let t := {| tp_flags := flags; tp_method := method; tp_time := time; tp_date := date; tp_crc := crc; tp_csize := cs; tp_usize := us; tp_name := name; tp_fields := l |} in
    top_tells t e /\ top_readable t e.
Proof.
  unfold lfh_view, top_readable. cbn [l_compression l_uncompressed_size l_compressed_size l_flags tp_flags]. rewrite gp_from_bits. cbn [gp_data_descriptor gp_encrypted]. split.
  - intros E. apply rbind_ok in E as (c & C & E). apply rbind_ok in E as (xs & X & E).
    destruct (N.testbit flags 3 && compression_eqb c Stored) eqn:DS; [discriminate|]. destruct (N.testbit flags 0) eqn:En; [discriminate|].
    injection E as <-.
    apply fields_taken in X as (l & S & F). apply method_taken in C. exists l. split; [exact S|]. split.
    + unfold top_tells, lfh_entry.
      cbn [en_extra tp_usize tp_csize tp_fields tp_flags en_filename tp_name en_comment tp_method en_compression en_level en_crc32 tp_crc
      en_uncompressed_size en_compressed_size en_attr_compat en_date tp_date tp_time en_iattr en_eattr
      en_data_descriptor l_flags l_crc l_mod_date l_mod_time gp_filename_unicode gp_data_descriptor l_uncompressed_size l_compressed_size].
      split; [exact F|]. split; [apply detect_filename_spec|]. split; [reflexivity|]. split; [exact C|]. do 2 (split; [reflexivity|]).
      split; [|now repeat split]. erewrite (sizes_ok us cs l xs F) by reflexivity. now destruct (get_combined_sizes _ _ _).
    + split; [reflexivity|]. cbn [lfh_entry en_compression]. intros [B ->]. rewrite B in DS. discriminate DS.
  - cbv zeta. intros (l & S & (F & N & Cm & C & Lv & Cr & P & At & Dt & Ia & Ea & Dd) & En & Ds).
    cbn [tp_usize tp_csize tp_fields tp_flags tp_name tp_method tp_crc tp_date tp_time] in *.
    apply method_taken in C. rewrite C. cbn [rbind].
    rewrite (proj2 (fields_taken cfg us cs x _) (ex_intro _ l (conj S F))). cbn [rbind].
    replace (N.testbit flags 3 && compression_eqb (en_compression e) Stored) with false; [|symmetry; destruct (N.testbit flags 3); [|reflexivity];
      cbn [andb]; destruct (en_compression e); try reflexivity; elim Ds; now split]. rewrite En. f_equal. f_equal. unfold lfh_entry.
    erewrite (sizes_ok us cs l _ F) in P by reflexivity.
    cbn [l_flags l_crc l_mod_date l_mod_time gp_filename_unicode gp_data_descriptor l_uncompressed_size l_compressed_size].
    apply (reads_as_unique XPath _ _ _ (detect_filename name (N.testbit flags 11) (en_extra e)) _ ltac:(now injection 1)) in N; [|apply detect_filename_spec].
    rewrite N. destruct (get_combined_sizes us cs _) as [us' cs']. injection P as P1 P2. cbn [fst snd]. rewrite <- P1, <- P2.
    destruct e as [fn co lv cr us1 cs1 at1 dt1 ia1 ea1 ex1 cm1 dd1].
    cbn [en_extra en_filename en_comment en_compression en_level en_crc32 
      en_uncompressed_size en_compressed_size en_attr_compat en_date en_iattr en_eattr en_data_descriptor] in *.
    now subst.
Qed.
Lemma never_none cfg h name x : lfh_view cfg h name x <> Ok None.
Proof.
  unfold lfh_view. destruct (compression_try_from _); cbn [rbind]; [|discriminate..]. destruct (parse_extra_fields _ _ _ _); cbn [rbind]; [|discriminate..].
  destruct (_ && _); [discriminate|]. destruct (gp_encrypted _); discriminate.
Qed.
Lemma top_reads cfg d p o s' : lfh_read cfg (src d p) = (Ok o, s') ->
  match o with
  | None => found_at (le 4 0x02014b50) d p /\ s' = src d (p + 4)
  | Some e => exists t p', s' = src d p' /\ read_top (past p d) t (past p' d) /\ top_tells t e /\ top_readable t e
  end.
Proof.
  intros E. pose proof E as E0. unfold lfh_read in E. apply bind_inv in E as (b & s1 & A & E). apply exact_inv in A as (L & -> & ->).
  destruct (from_le _ =? CDH_SIGNATURE) eqn:C.
  { apply N.eqb_eq in C. unfold ret in E. injection E as <- <-. split; [|reflexivity]. apply signature_at; [reflexivity|]. now split. }
  destruct (from_le _ =? LFH_SIGNATURE) eqn:S; [|discriminate]. cbn [negb] in E. apply N.eqb_eq in S.
  apply bind_inv in E as (h & s3 & H & _). unfold lfh_from_reader in H. apply bind_inv in H as (b & s4 & H & _). apply exact_inv in H as (L' & _ & _).
  destruct (nums_total top11 (drop p d)) as (vs & m & N); [change (widths_of top11) with 30; rewrite len_drop in *; lia|].
  pose proof (proj1 (nums_fs _ _ _ _ N)) as Ln. change (length top11) with 11%nat in Ln.
  do 11 (destruct vs as [|? vs]; [discriminate Ln|apply eq_add_S in Ln]). destruct vs; [|discriminate Ln].
  pose proof (nums_head _ _ _ _ _ _ N) as Hd. change (N.of_nat 4) with 4 in Hd. rewrite S in Hd. change LFH_SIGNATURE with 0x04034b50 in Hd. subst n.
  destruct (top_run cfg _ _ _ _ _ _ _ _ _ _ _ _ _ N) as (p' & D & R). destruct (proj1 (R _ _) E0) as [E1 ->].
  destruct o as [e|]; [|now elim (never_none _ _ _ _ E1)].
  apply top_view in E1 as (l & F & T & Rd). eexists; exists p'. split; [reflexivity|]. split; [|split; [exact T|exact Rd]].
  rewrite !past_drop, D, <- !past_drop, <- !upto_take. rewrite <- past_drop in N. eapply top_here; [exact N|].
  now rewrite upto_take, past_drop.
Qed.
Lemma top_taken cfg d p t m e : read_top (past p d) t m -> top_tells t e -> top_readable t e ->
  exists p', lfh_read cfg (src d p) = (Ok (Some e), src d p') /\ past p' d = m.
Proof.
  intros R T Rd. destruct R as [needed flags method time date crc cs us nl xl m xs N F].
  rewrite past_drop in N. destruct (top_run cfg _ _ _ _ _ _ _ _ _ _ _ _ _ N) as (p' & D & R).
  exists p'. split; [|now rewrite !past_drop, D]. apply R. split; [|reflexivity]. apply top_view. exists xs.
  rewrite <- !past_drop, <- !upto_take. split; [exact F|]. now split.
Qed.
Lemma any_ok {A} (m : SM source A) s a s' : insens m -> m s = (Ok a, s') ->
  m (src (s_data s) (s_pos s)) = (Ok a, src (s_data s) (s_pos s')) /\ s_data s' = s_data s.
Proof.
  intros I E. specialize (I s). unfold agrees in I. rewrite E in I. change (calm s) with (src (s_data s) (s_pos s)) in I.
  destruct (m (src (s_data s) (s_pos s))) as [r0 s0]. destruct I as (_ & _ & D & used & _ & [(_ & <- & <-)|(pre & c & _ & _ & B)]); [|discriminate].
  split; [|exact D]. unfold calm. now rewrite D.
Qed.
Lemma calm_ok {A} (m : SM source A) s a p' : insens m -> nofail (s_sched s) -> m (src (s_data s) (s_pos s)) = (Ok a, src (s_data s) p') ->
  exists s', m s = (Ok a, s') /\ s_data s' = s_data s /\ s_pos s' = p'.
Proof.
  intros I N E. specialize (I s). unfold agrees in I. change (calm s) with (src (s_data s) (s_pos s)) in I. rewrite E in I.
  destruct (m s) as [r s']. destruct I as (_ & _ & D & used & U & [(_ & -> & C)|(pre & c & -> & _ & _)]).
  - exists s'. split; [reflexivity|]. split; [exact D|]. unfold calm in C. now injection C as _ C.
  - exfalso. rewrite U, <- app_assoc in N. apply nofail_app in N as [_ N]. inversion N; subst. discriminate.
Qed.
Lemma next_reads cfg s o s' : stream_next cfg s = (Ok o, s') ->
  s_data s' = s_data s /\
  match o with
  | None => found_at (le 4 0x02014b50) (s_data s) (s_pos s) /\ s_pos s' = s_pos s + 4
  | Some r => exists t, read_top (past (s_pos s) (s_data s)) t (past (s_pos s') (s_data s)) /\ top_tells t (rd_entry r) /\ top_readable t (rd_entry r) /\
      rd_descriptor r = en_data_descriptor (rd_entry r) /\
      rd_reader r = er_new s' (en_compression (rd_entry r)) (if en_data_descriptor (rd_entry r) then 0xFFFFFFFFFFFFFFFF else en_compressed_size (rd_entry r))
  end.
Proof.
  intros E. unfold stream_next in E. destruct (lfh_read cfg s) as [[[e|]|?|?] s1] eqn:R; try discriminate;
    destruct (any_ok _ _ _ _ (insens_lfh_read cfg) R) as [C D]; apply top_reads in C; injection E as <- <-; (split; [exact D|]).
  - destruct C as (t & p' & P & Rt & T & Rd). injection P as <-. exists t. cbn [rd_entry rd_descriptor rd_reader].
    split; [exact Rt|]. split; [exact T|]. split; [exact Rd|]. now split.
  - destruct C as [F P]. injection P as ->. now split.
Qed.
Lemma next_ends cfg s : nofail (s_sched s) -> found_at (le 4 0x02014b50) (s_data s) (s_pos s) -> exists s', stream_next cfg s = (Ok None, s').
Proof.
  intros N F. apply signature_at in F as [L F]; [|reflexivity].
  destruct (calm_ok (lfh_read cfg) s None (s_pos s + 4) (insens_lfh_read cfg) N) as (s' & E & _).
  - unfold lfh_read. assert (L4 : len (take 4 (drop (s_pos s) (s_data s))) = 4) by (rewrite len_take; lia).
    rewrite (bind_ok _ _ _ _ _ (read_exact_here 4 _ _ (take 4 (drop (s_pos s) (s_data s))) (drop 4 (drop (s_pos s) (s_data s))) (eq_sym (take_drop _ _)) L4)).
    cbv zeta. rewrite F. reflexivity.
  - exists s'. unfold stream_next. now rewrite E.
Qed.
Lemma next_takes cfg s t m e : nofail (s_sched s) -> read_top (past (s_pos s) (s_data s)) t m -> top_tells t e -> top_readable t e ->
  exists r s', stream_next cfg s = (Ok (Some r), s') /\ rd_entry r = e /\ past (s_pos s') (s_data s') = m.
Proof.
  intros N R T Rd. destruct (top_taken cfg _ _ _ _ _ R T Rd) as (p' & E & M).
  destruct (calm_ok _ s _ p' (insens_lfh_read cfg) N E) as (s' & E' & D & P). unfold stream_next. rewrite E'.
  eexists _, s'. split; [reflexivity|]. cbn [rd_entry]. split; [reflexivity|]. now rewrite D, P.
Qed.
Lemma top_unique l t m : read_top l t m -> forall t' m', read_top l t' m' -> t = t' /\ m = m'.
Proof.
  intros R t' m' R'. destruct R as [? ? ? ? ? ? ? ? ? ? ? ? N F]. destruct R' as [? ? ? ? ? ? ? ? ? ? ? ? N' F'].
  rewrite N in N'. injection N' as <- <- <- <- <- <- <- <- <- <- <-.
  rewrite (some_fields_unique _ _ F _ F'). now split.
Qed.
Lemma top_size l t m e : read_top l t m -> top_tells t e -> 30 + entry_size e + 2 * len m <= 2 * len l.
Proof.
  intros R (F & Nm & C & _). destruct R as [needed flags method time date crc cs us nl xl m xs Nu S].
  cbn [tp_usize tp_csize tp_fields tp_name tp_flags] in *. apply nums_long in Nu. change (widths_of _) with 30 in Nu.
  apply text_size_le in Nm; [|now left]. pose proof (kinds_le (en_extra e)) as K. apply fields_size in S. apply fields_size_le in F. unfold entry_size.
  rewrite C. change (text_size {| zs_enc := EUtf8; zs_raw := []; zs_alt := None |}) with 0.
  assert (P : total (fun f : N * bytes => len (snd f)) xs <= total (fun f => 4 + len (snd f)) xs) by (clear; induction xs; cbn [total]; lia).
  rewrite upto_take, len_take in S, Nm. rewrite !len_past in *. lia.
Qed.
Lemma next_size cfg s r s' : stream_next cfg s = (Ok (Some r), s') ->
  30 + entry_size (rd_entry r) <= 2 * (len (s_data s) - s_pos s) - 2 * (len (s_data s) - s_pos s').
Proof.
  intros E. apply next_reads in E as (_ & t & R & T & _). pose proof (top_size _ _ _ _ R T) as H. rewrite !len_past in H. lia.
Qed.
