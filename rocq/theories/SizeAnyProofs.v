(** The length of an archive whose data is compressed. *)
From Verif Require Import Base BaseFacts SpecFormat SpecCrc SpecArchive SpecWrite SpecOrdinary SpecSize SpecImage SpecSession SpecSizeAny ZString ZDate Headers ExtraField Entry
  IO Writer RecordFacts HistFacts CloseFacts WriteProofs StreamOutcome AllWork SizeProofs ImageProofs SessionProofs.

Lemma put_field_new mk sel b t : forall xs, Forall (fun x => sel x = None) xs -> put_field mk sel b t xs = xs ++ [mk (UV1 (crc32_spec b) t)].
Proof. intros xs F. induction F as [|x xs E F IH]; [reflexivity|]. cbn [put_field]. now rewrite E, IH. Qed.
Lemma put_text_new mk sel s xs : is_unicode mk -> Forall (fun x => sel x = None) xs ->
  exists us, put_text mk sel s xs = xs ++ us /\ (us = [] \/ exists u, us = [mk u]) /\ len (spec_extras us) = field_for s.
Proof.
  intros U F. unfold put_text, field_for. destruct (zs_enc s); [|exists []; split; [now rewrite app_nil_r|]; split; [now left|reflexivity]].
  destruct (zs_raw s) as [|b r] eqn:R; [exists []; split; [now rewrite app_nil_r|]; split; [now left|reflexivity]|].
  rewrite (put_field_new _ _ _ _ _ F). eexists. split; [reflexivity|]. split; [right; now eexists|].
  rewrite spec_extras_cons, len_app, len_extra, U. change (len (spec_extras [])) with 0.
  replace (len (b :: r) =? 0) with false by (rewrite len_cons; lia). lia.
Qed.
Lemma none_path xs : none_of XPath xs -> Forall (fun x => path_of x = None) xs.
Proof. intro F. eapply Forall_impl; [|exact F]. intros [] N; try reflexivity. now elim (N u). Qed.
Lemma none_note xs : none_of XComment xs -> Forall (fun x => note_of x = None) xs.
Proof. intro F. eapply Forall_impl; [|exact F]. intros [] N; try reflexivity. now elim (N u). Qed.
Lemma local_zip64_one it : local_zip64 it = [] \/ exists z, local_zip64 it = [XZip64 z].
Proof. unfold local_zip64, zip64_extra. destruct (i_stream it), (i_no64 it), (i_big it); try (now left); right; now eexists. Qed.
Lemma local_fields_shape it : unsaid (i_entry it) ->
  exists us, local_fields it = en_extra (i_entry it) ++ local_zip64 it ++ us /\ Forall (fun x => is64 x = false) us /\ len (spec_extras us) = text_fields (i_entry it).
Proof.
  intros (NP & NC). unfold local_fields, text_fields, plain_entry. set (e := i_entry it) in *. set (z := local_zip64 it).
  assert (Z : Forall (fun x => path_of x = None) z /\ Forall (fun x => note_of x = None) z).
  { unfold z. destruct (local_zip64_one it) as [->|(y & ->)]; split; repeat constructor. }
  destruct (is_plain (en_filename e) && is_plain (en_comment e)); [exists []; rewrite app_nil_r; now repeat split|].
  destruct (put_text_new XPath path_of (en_filename e) (en_extra e ++ z) path_unicode) as (us & -> & U1 & U2); [apply Forall_app; split; [now apply none_path|apply Z]|].
  destruct (put_text_new XComment note_of (en_comment e) ((en_extra e ++ z) ++ us) comment_unicode) as (vs & -> & V1 & V2); [|].
  { repeat (apply Forall_app; split); [now apply none_note|apply Z|]. destruct U1 as [->|(u & ->)]; repeat constructor. }
  exists (us ++ vs). rewrite <- !app_assoc. split; [reflexivity|]. split; [|rewrite spec_extras_app, len_app; lia].
  apply Forall_app. split; [destruct U1 as [->|(u & ->)]|destruct V1 as [->|(u & ->)]]; repeat constructor.
Qed.
Lemma plain_map xs z : Forall (fun x => is64 x = false) xs -> map (fun x => match x with XZip64 _ => z | _ => x end) xs = xs.
Proof. induction 1 as [|x xs P F IH]; [reflexivity|]. cbn [map]. rewrite IH. now destruct x. Qed.
Lemma central_fields_size it : entry_fine (i_entry it) -> unsaid (i_entry it) -> i_no64 it = false -> (i_stream it = false -> i_big it = false /\ is_over (i_off it) = false) ->
  len (spec_extras (local_fields it)) = extras_size (i_entry it) + (if i_stream it then 20 else 0) /\
  len (spec_extras (central_fields it)) = extras_size (i_entry it) + (if i_stream it then 28 else 0).
Proof.
  intros (_ & PL) U N64 SM. assert (P : Forall (fun x => is64 x = false) (en_extra (i_entry it))) by (eapply Forall_impl; [|exact PL]; now intros []).
  unfold central_fields, central_zip64, in64, off64. destruct (local_fields_shape it U) as (us & E & PU & LU). rewrite E, !map_app, (plain_map _ _ P), (plain_map _ _ PU).
  unfold local_zip64 in *. rewrite N64 in *. unfold extras_size. destruct (i_stream it); cbn [negb andb when].
  - cbn [map zip64_extra app]. rewrite app_nil_r, !spec_extras_app, !len_app. unfold zip64_extra. rewrite !(spec_extras_cons (XZip64 _)), !len_app, !len_extra.
    unfold spec_payload; cbn [zf_uncompressed zf_compressed zf_offset zf_disk]. split.
    + match goal with |- context [4 + len ?z] => change (len z) with 16 end. lia.
    + match goal with |- context [4 + len ?z] => change (len z) with 24 end. lia.
  - destruct (SM eq_refl) as [-> ->]. cbn [map negb andb app]. rewrite app_nil_r, !spec_extras_app, !len_app. lia.
Qed.
Lemma item_sizes it : entry_fine (i_entry it) -> unsaid (i_entry it) -> i_no64 it = false -> (i_stream it = false -> i_big it = false /\ is_over (i_off it) = false) ->
  len (local_bytes it) = local_size (i_entry it) (i_stream it) /\ len (record_bytes it) = central_size (i_entry it) (i_stream it) /\
  len (descriptor_image it) = if i_stream it then 16 else 0.
Proof.
  intros F U N64 SM. destruct (central_fields_size it F U N64 SM) as [A B]. split; [|split].
  - unfold local_bytes. rewrite local_image_len, A. unfold local_size, i_name. lia.
  - unfold record_bytes. rewrite !len_app, B.
    match goal with |- len (central_header ?a ?b ?c ?d ?e ?f ?g ?h ?i ?j ?k ?l ?m ?n ?o ?p) + _ = _ => change (len (central_header a b c d e f g h i j k l m n o p)) with 46 end.
    unfold central_size, i_name, i_comment. lia.
  - unfold descriptor_image. destruct (i_stream it); reflexivity.
Qed.

(** ** A call *)
Definition kept_in (s : session) : N := len (s_bytes s) + len (concat (s_records s)).
Lemma kept_record s b : kept_in (with_record s b) = kept_in s + len b.
Proof. unfold kept_in; cbn [s_bytes s_records s_no64 s_is64 s_comment with_bytes with_64 with_record]. rewrite concat_app, len_app. cbn [concat]. rewrite app_nil_r. lia. Qed.
Lemma recorded_call s it s' : len (s_records s) < 65535 -> recorded_in s it = (Ok tt, s') -> s' = with_record s (record_bytes it).
Proof.
  intro L. unfold recorded_in. replace (65535 <? len (s_records (with_record s (record_bytes it)))) with false; [intro E; now injection E|].
  cbn [s_records with_record]. rewrite len_app. change (len [record_bytes it]) with 1. lia.
Qed.
Lemma whole_call s it s' : entry_fine (i_entry it) -> unsaid (i_entry it) -> i_no64 it = false -> i_stream it = false -> i_usize it <= 0xFFFFFFFF -> len (i_data it) <= 0xFFFFFFFF ->
  i_off it <= 0xFFFFFFFF -> s_no64 s = false -> len (s_records s) < 65535 -> whole_ends s it = (Ok tt, s') ->
  s_no64 s' = false /\ kept_in s' = kept_in s + (local_size (i_entry it) false + len (i_data it) + central_size (i_entry it) false) /\ s_is64 s' = s_is64 s || false /\
  len (s_records s') <= len (s_records s) + 1 /\ s_comment s' = s_comment s.
Proof.
  intros F U I3 I2 L1 L2 L3 N64 LR E.
  assert (BG : i_big it = false) by (unfold i_big, i_csize, is_over; lia). assert (OV : is_over (i_off it) = false) by (unfold is_over; lia).
  destruct (item_sizes it F U I3 (fun _ => conj BG OV)) as (S1 & S2 & S3). rewrite I2 in *.
  unfold whole_ends in E. rewrite BG, OV in E. cbn [orb andb] in E.
  destruct (too_long (spec_extras (local_fields it))); [discriminate|]. destruct (too_long (i_name it)); [discriminate|]. destruct (too_long (i_comment it)); [discriminate|].
  destruct (too_long (spec_extras (central_fields it))); [discriminate|].
  apply recorded_call in E; [|exact LR]. subst s'. rewrite kept_record. unfold kept_in; cbn [s_bytes s_records s_no64 s_is64 s_comment with_bytes with_64 with_record]. rewrite orb_false_r, len_app. unfold entry_bytes. fold (local_bytes it). rewrite !len_app, S1, S2, S3.
  change (len [record_bytes it]) with 1. ands; try lia; try assumption; reflexivity.
Qed.
Lemma call_size data s o r s' : op_fine o -> moderate o -> o <> OpForceNoZip64 -> s_no64 s = false -> kept_in s + op_size_with data o <= 0xFFFFFFFF -> len (s_records s) < 65535 ->
  call_ends data s o = (r, s') -> r = Ok tt ->
  s_no64 s' = false /\ kept_in s' = kept_in s + op_size_with data o /\ s_is64 s' = s_is64 s || uses_zip64 o /\ len (s_records s') <= len (s_records s) + 1 /\
  s_comment s' = comment_after (s_comment s) o.
Proof.
  intros F (M & U) NF N64 LB LR E ->. assert (KB : len (s_bytes s) <= kept_in s) by (unfold kept_in; lia).
  unfold op_fine in F.
  destruct o as [| |c|e d|e d|pre e body closed]; cbn [op_entry] in *; cbn [call_ends] in E; cbn [uses_zip64 comment_after].
  - now elim NF.
  - injection E as <-. cbn [op_size_with]. unfold kept_in; cbn [s_bytes s_records s_no64 s_is64 s_comment with_bytes with_64 with_record]. rewrite orb_true_r. repeat split; [exact N64|lia|lia].
  - injection E as <-. cbn [op_size_with]. unfold kept_in; cbn [s_bytes s_records s_no64 s_is64 s_comment with_bytes with_64 with_record]. rewrite orb_false_r. repeat split; [exact N64|lia|lia].
  - destruct (no_encoder e); [discriminate|]. apply whole_call in E; [exact E|..]; cbn [item_for item_of i_entry i_no64 i_stream i_usize i_data i_off]; try assumption; try reflexivity; cbn [op_size_with] in LB; lia.
  - apply whole_call in E; [exact E|..]; cbn [item_for item_of i_entry i_no64 i_stream i_usize i_data i_off]; try assumption; try reflexivity; cbn [op_size_with] in LB; lia.
  - set (it := item_for s (OpStream pre e body closed) (data (OpStream pre e body closed))) in *.
    assert (IT : i_entry it = e /\ i_stream it = true /\ i_no64 it = false /\ i_data it = data (OpStream pre e body closed)) by (unfold it; destruct pre; now repeat split).
    destruct IT as (I1 & I2 & I3 & I4). destruct (item_sizes it) as (S1 & S2 & S3); [now rewrite I1|now rewrite I1|exact I3|now rewrite I2|]. rewrite I1, I2 in *.
    unfold stream_ends in E. rewrite N64, I1 in E. cbn [andb with_64 s_no64] in E.
    destruct (too_long (spec_extras (local_fields it))); [discriminate|]. destruct (too_long (i_name it)); [discriminate|]. destruct (negb pre && no_encoder e); [discriminate|].
    destruct closed; cbn [negb] in E.
    + cbn [with_bytes with_64 s_no64] in E. rewrite N64 in E. cbn [andb] in E. destruct (too_long (spec_extras (central_fields it))); [discriminate|]. destruct (too_long (i_comment it)); [discriminate|].
      eapply recorded_call in E; [|cbn; lia]. subst s'. rewrite kept_record. unfold kept_in; cbn [s_bytes s_records s_no64 s_is64 s_comment with_bytes with_64 with_record]. rewrite orb_true_r, !len_app, I4, S1, S2, S3. cbn [op_size_with]. ands; try lia; try assumption; try reflexivity.
    + apply (f_equal snd) in E. cbn [snd] in E. subst s'. unfold kept_in; cbn [s_bytes s_records s_no64 s_is64 s_comment with_bytes with_64 with_record]. rewrite orb_true_r, !len_app, I4, S1. cbn [op_size_with]. ands; try lia; try assumption; reflexivity.
Qed.

(** ** A session *)
Lemma calls_size data l : Forall op_fine l -> Forall moderate l -> Forall (fun o => o <> OpForceNoZip64) l -> forall s, s_no64 s = false ->
  kept_in s + ops_size_with data l <= 0xFFFFFFFF -> len (s_records s) + len l <= 65535 ->
  let '(xs, s') := calls_end data s l in
  Forall (fun x => snd x = Ok tt) xs ->
  s_no64 s' = false /\ kept_in s' = kept_in s + ops_size_with data l /\ s_is64 s' = s_is64 s || existsb uses_zip64 l /\ s_comment s' = fold_left comment_after l (s_comment s).
Proof.
  intros F M NF. induction l as [|o l IH]; intros s N64 LB LR; cbn [calls_end].
  - intros _. cbn. rewrite orb_false_r. repeat split; [exact N64|lia].
  - inversion F as [|? ? Fo Fl]; subst. inversion M as [|? ? Mo Ml]; subst. inversion NF as [|? ? No Nl]; subst.
    cbn [ops_size_with fold_right] in LB |- *. fold (ops_size_with data l) in *. rewrite len_cons in LR.
    destruct (call_ends data s o) as [r s1] eqn:C. specialize (IH Fl Ml Nl s1). destruct (calls_end data s1 l) as [xs s2].
    intros W. inversion W as [|? ? W1 W2]; subst. cbn [snd] in W1.
    destruct (call_size data s o r s1 Fo Mo No N64 ltac:(lia) ltac:(lia) C W1) as (A1 & A2 & A3 & A4 & A5).
    destruct (IH A1 ltac:(lia) ltac:(lia) W2) as (B1 & B2 & B3 & B4). cbn [existsb fold_left]. rewrite orb_assoc, <- A3, <- A5. repeat split; [exact B1|lia|exact B3|exact B4].
Qed.
Lemma any_session_size cd : enc_takes cd -> exists data, (forall o, stores cd o (data o)) /\
  forall sched l, obliging sched -> Forall handy l -> Forall moderate l -> len l <= 65535 -> ops_size_with data l <= 0xFFFFFFFF ->
  let '(xs, r, w) := run_archive cd sched l in
  xs = map (fun o => (o, Ok tt)) l /\ r = Ok tt /\ (len (w_bytes w) < 0x10000000000000000 -> len (w_bytes w) = session_size_with data l).
Proof.
  intro T. exists (data_of cd). split; [exact (data_stores cd T)|]. intros sched l OB H M LN LB.
  assert (G : Forall op_good l) by (eapply Forall_impl; [|exact H]; intros o (_ & G & _); exact G).
  pose proof (archive_works cd sched l T OB H) as W. pose proof (archive_session cd sched l T OB G) as S.
  destruct (run_archive cd sched l) as [[xs r] w]. destruct W as [-> ->]. split; [reflexivity|]. split; [reflexivity|]. intro L. specialize (S L).
  unfold session_ends in S.
  pose proof (calls_size (data_of cd) l ltac:(eapply Forall_impl; [|exact G]; intros o (F & _); exact F) M ltac:(eapply Forall_impl; [|exact H]; intros o (F & _); exact F) fresh eq_refl
    ltac:(change (kept_in fresh) with 0; lia) ltac:(change (len (s_records fresh)) with 0; lia)) as C.
  destruct (calls_end (data_of cd) fresh l) as [ys s]. change (kept_in fresh) with 0 in C. change (s_is64 fresh) with false in C. change (s_comment fresh) with (@None bytes) in C.
  destruct (close_ends s) as [r b] eqn:CE. injection S as -> -> ->.
  destruct C as (C1 & C2 & C3 & C4); [apply Forall_forall; intros x I; apply in_map_iff in I as (o & <- & _); reflexivity|].
  unfold close_ends in CE. rewrite C1, andb_false_r in CE. injection CE as <-. unfold kept_in in C2.
  replace (is_over (len (s_bytes s))) with false by (unfold is_over; lia). rewrite C3, C4, !len_app, archive_end_len. cbn [orb]. rewrite orb_false_r. unfold session_size_with, last_comment.
  destruct (existsb uses_zip64 l); lia.
Qed.
