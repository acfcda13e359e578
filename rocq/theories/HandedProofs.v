(** Writing data and handing it over compressed are the same. *)
From Verif Require Import Base BaseFacts Crc32 CrcFacts SpecCrc SpecFormat SpecArchive SpecWrite SpecSize SpecImage SpecSession SpecHanded ZString Headers ExtraField Entry
  IO EntryReader Writer StreamFacts HistFacts OutcomeFacts SessionProofs.

Lemma whole_handed cd e d : enc_takes cd -> en_compression e <> Deflate64 ->
  exists z, compressed cd (en_compression e) d z /\ forall w, run_op cd (OpWhole e d) w = run_op cd (OpWholePre (described e d) z) w.
Proof.
  intros T N. exists (data_of cd (OpWhole e d)). split.
  - destruct (data_stores cd T (OpWhole e d)) as [C|C]; [contradiction|exact C].
  - intro w. cbn [run_op data_of]. unfold write_entry_whole, write_entry_whole_precompressed, described. rewrite crc32_is_spec.
    change (en_compression (set_crc32 _ _)) with (en_compression e). change (en_level (set_crc32 _ _)) with (en_level e).
    destruct (en_compression e) eqn:CE; try reflexivity; try contradiction; unfold bind at 1, lift;
      (destruct (compress cd _ (en_level e) d) as [z|x|p] eqn:CZ;
       [reflexivity|exact (False_ind _ (compress_no_err _ _ _ _ _ CZ))|exfalso; eapply (compress_no_panic cd); [exact T| | |exact CZ]; discriminate]).
Qed.

Lemma calls_app data l1 : forall s l2, calls_end data s (l1 ++ l2) =
  let '(xs, s1) := calls_end data s l1 in let '(ys, s2) := calls_end data s1 l2 in (xs ++ ys, s2).
Proof.
  induction l1 as [|o l1 IH]; intros s l2; cbn [app calls_end]; [now destruct (calls_end data s l2)|].
  destruct (call_ends data s o) as [r s1]. rewrite IH. destruct (calls_end data s1 l1) as [xs s2]. now destruct (calls_end data s2 l2).
Qed.

Lemma stream_handed cd e body closed : enc_takes cd -> en_compression e <> Deflate64 -> describes e (fed_bytes body) ->
  exists z, stores cd (OpStream false e body closed) z /\
  forall body' l1 l2 sched sched', fed_bytes body' = z -> obliging sched -> obliging sched' ->
    Forall op_good (l1 ++ OpStream false e body closed :: l2) -> op_good (OpStream true e body' closed) ->
    let '(xs, r, w) := run_archive cd sched (l1 ++ OpStream false e body closed :: l2) in
    let '(xs', r', w') := run_archive cd sched' (l1 ++ OpStream true e body' closed :: l2) in
    len (w_bytes w) < 0x10000000000000000 -> len (w_bytes w') < 0x10000000000000000 ->
    map snd xs = map snd xs' /\ r = r' /\ w_bytes w = w_bytes w'.
Proof.
  intros T N [DU DC]. exists (data_of cd (OpStream false e body closed)). split; [exact (data_stores cd T _)|].
  intros body' l1 l2 sched sched' F OB OB' G G'.
  pose proof (archive_session cd sched _ T OB G) as H.
  assert (G2 : Forall op_good (l1 ++ OpStream true e body' closed :: l2)).
  { apply Forall_app in G as [G1 G2]. inversion G2; subst. apply Forall_app. auto. }
  pose proof (archive_session cd sched' _ T OB' G2) as H'.
  destruct (run_archive cd sched _) as [[xs r] w]. destruct (run_archive cd sched' _) as [[xs' r'] w'].
  intros L L'. specialize (H L). specialize (H' L'). clear L L' G G' G2.
  unfold session_ends in H, H'. rewrite calls_app in H, H'. destruct (calls_end (data_of cd) fresh l1) as [ys s1]. cbn [calls_end] in H, H'.
  assert (E : call_ends (data_of cd) s1 (OpStream true e body' closed) = call_ends (data_of cd) s1 (OpStream false e body closed)).
  { assert (Z : data_of cd (OpStream true e body' closed) = data_of cd (OpStream false e body closed)).
    { pose proof (data_stores cd T (OpStream true e body' closed)) as S. cbn [stores] in S. now rewrite S, F. }
    assert (I : item_for s1 (OpStream true e body' closed) (data_of cd (OpStream true e body' closed)) =
                item_for s1 (OpStream false e body closed) (data_of cd (OpStream false e body closed))).
    { rewrite Z. unfold item_for. cbn [item_of i_stream i_no64 i_entry i_usize i_crc]. now rewrite DU, DC. }
    unfold call_ends. rewrite I.
    assert (NE : no_encoder e = false) by (destruct (no_encoder e) eqn:X; [apply no_encoder_iff in X; contradiction|reflexivity]).
    now rewrite NE. }
  rewrite E in H'. destruct (call_ends (data_of cd) s1 (OpStream false e body closed)) as [r1 s2].
  destruct (calls_end (data_of cd) s2 l2) as [zs s3]. destruct (close_ends s3) as [r3 b3].
  injection H as <- <- <-. injection H' as <- <- <-. rewrite !map_app. auto.
Qed.
