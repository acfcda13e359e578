(** How single calls end, and what ZIP64 prohibition means. *)
From Verif Require Import Base BaseFacts Crc32 CrcFacts ZString ZDate Headers HeadersFacts ExtraField ExtraFieldFacts Entry IO IOFacts
  Locator LocatorFacts Reader EntryReader Writer WriterFacts WholeFacts StreamFacts SpecFormat SpecCrc SpecUtf8 SpecArchive SpecRead SpecWrite
  EntryProofs ReadProofs WriteProofs RecordFacts HistFacts CloseFacts RoundTrip.
Arguments N.add : simpl never.
Arguments N.sub : simpl never.

Lemma count_len l : Forall no_disk l -> fields_count_bytes l = len (spec_extras l).
Proof.
  induction 1 as [|x l H _ IH]; [reflexivity|]. cbn [fields_count_bytes]. unfold spec_extras in *. cbn [map concat]. rewrite len_app, <- IH. f_equal.
  unfold extra. rewrite len_app. change (len (record [(2%nat, spec_id x); (2%nat, len (spec_payload x))])) with 4.
  destruct x as [z|u|u|id sz c]; cbn [field_count_bytes spec_payload] in *.
  - unfold zip64_count_bytes, content_size. destruct z as [[a|] [b|] [o|] d]; cbn in H; subst d; reflexivity.
  - destruct u as [crc t|v d]; cbn [unicode_count_bytes spec_unicode]; rewrite !len_app; [change (len (le 4 crc)) with 4; change (len [x01]) with 1|change (len [v]) with 1]; lia.
  - destruct u as [crc t|v d]; cbn [unicode_count_bytes spec_unicode]; rewrite !len_app; [change (len (le 4 crc)) with 4; change (len [x01]) with 1|change (len [v]) with 1]; lia.
  - reflexivity.
Qed.
Lemma told_no_disk mk b t xs ys : (forall u, no_disk (mk u)) -> told mk b t xs ys -> Forall no_disk xs -> Forall no_disk ys.
Proof.
  intros H. destruct 1 as [xs _|a crc old c _|a v d c _]; intro F; [|rewrite Forall_app in *|exact F].
  - apply Forall_app. split; [exact F|]. now constructor.
  - destruct F as [F1 F2]. split; [exact F1|]. inversion F2; subst. now constructor.
Qed.
Lemma texts_no_disk n c f xs ys : texts n c f xs ys -> Forall no_disk xs -> Forall no_disk ys.
Proof.
  destruct 1 as [xs _ _|xs ys zs _ S1 S2]; [easy|]. intro F.
  assert (G : Forall no_disk ys) by (destruct S1; [eapply told_no_disk; [|eassumption|exact F]; easy|exact F]).
  destruct S2; [eapply told_no_disk; [|eassumption|exact G]; easy|exact G].
Qed.
Lemma local_no_disk it : Forall no_disk (local_zip64 it).
Proof. unfold local_zip64, zip64_extra. destruct (i_stream it), (i_no64 it), (i_big it); repeat constructor. Qed.

Lemma whole_body_outcome fn e u c d w : fn = w_force_no w -> Forall no_disk (en_extra e) ->
  let it := whole_item fn e u c d (w_offset w) in
  exists flag lx, texts (en_filename e) (en_comment e) flag (en_extra e ++ local_zip64 it) lx /\
  let '(r, w') := whole_write_body (measured e u c) d w in
  if (i_big it || is_over (i_off it)) && fn then r = Err (Zip64Needed LargeFile) /\ w' = w
  else if 65535 <? len (spec_extras lx) then r = Err ExtraFieldTooLarge /\ w_sink w' = w_sink w /\ w_cds w' = w_cds w
  else if 65535 <? len (i_name it) then r = Err FileNameTooLarge /\ w_sink w' = w_sink w /\ w_cds w' = w_cds w
  else if 65535 <? len (i_comment it) then r = Err CommentTooLarge /\ w_sink w' = w_sink w /\ w_cds w' = w_cds w
  else (forall x, r = Err x -> size_error x -> is_over (i_off it) = true /\ i_big it = false /\ x = ExtraFieldTooLarge /\ w_cds w' = w_cds w /\
          65535 < len (spec_extras lx) + 12) /\
       (w_sched w = [] -> is_over (i_off it) = false \/ i_big it = true \/ len (spec_extras lx) + 12 <= 65535 ->
          r = if (65535 <? len (w_cds w) + 1) && fn then Err (Zip64Needed TooManyFiles) else Ok tt).
Proof.
  intros FN ND. cbv zeta. set (off := w_offset w). set (it := whole_item fn e u c d off).
  destruct (wh_e3_facts fn e u c d off) as (F1 & F2 & F3 & F4 & F5 & F6 & F7 & F8 & F9 & F10 & T). fold it in T.
  exists (utf8_flag e), (en_extra (wh_e3 (measured e u c) d off)). split; [exact T|].
  rewrite whole_body_eq. cbv zeta. fold off. set (e' := measured e u c) in *.
  change (wh_big e' d) with (i_big it). change (over off) with (is_over (i_off it)). rewrite <- FN.
  destruct ((i_big it || is_over (i_off it)) && fn) eqn:FB; [now split|].
  assert (CL : fields_count_bytes (en_extra (wh_e3 e' d off)) = len (spec_extras (en_extra (wh_e3 e' d off)))).
  { apply count_len. eapply texts_no_disk; [exact T|]. apply Forall_app. split; [exact ND|apply local_no_disk]. }
  assert (WC : w_cds (wh_world e' d w) = w_cds w) by (unfold wh_world; now destruct (_ || _)).
  assert (WB : w_sink (wh_world e' d w) = w_sink w) by (unfold wh_world; now destruct (_ || _)).
  unfold wh_refused. cbv zeta. rewrite CL, F1, F2.
  change (basic_bytes (en_filename e)) with (i_name it). change (basic_bytes (en_comment e)) with (i_comment it).
  set (lx := en_extra (wh_e3 e' d off)) in *.
  assert (NL : forall n, negb (n <? 65536) = (65535 <? n)).
  { intro n. destruct (N.ltb_spec n 65536), (N.ltb_spec 65535 n); cbn; lia. }
  rewrite !NL. destruct (65535 <? len (spec_extras lx)) eqn:X1; [now rewrite WC, WB|].
  destruct (65535 <? len (i_name it)); [now rewrite WC, WB|]. destruct (65535 <? len (i_comment it)); [now rewrite WC, WB|].
  assert (C4 : fields_count_bytes (en_extra (wh_e4 e' d off)) = len (spec_extras lx) + if negb (i_big it) && is_over (i_off it) then 12 else 0).
  { unfold wh_e4. cbv zeta. change (late e' d off) with (negb (i_big it) && is_over (i_off it)).
    destruct (negb (i_big it) && is_over (i_off it)); [|rewrite N.add_0_r; exact CL].
    unfold set_extra at 1. cbn [en_extra]. rewrite fields_count_app. fold lx. rewrite CL. reflexivity. }
  rewrite C4. unfold bind. pose proof (puts_ok (head_writes (wh_lfh e' d off) (wh_e3 e' d off) ++ [d]) (wh_world e' d w)) as P. unfold put_ok in P.
  destruct (puts _ (wh_world e' d w)) as [[x|x|p] w1]; cbn [fst snd] in P; destruct P as (us & P); [| |easy].
  - destruct P as [M _]. pose proof (moved_cds _ _ _ _ _ M) as C1. rewrite WC in C1.
    match goal with |- context [if ?b then push_and_check _ _ _ else _] => idtac | _ => idtac end.
    destruct (N.ltb_spec (len (spec_extras lx) + (if negb (i_big it) && is_over (i_off it) then 12 else 0)) 65536) as [L4|L4].
    + rewrite push_and_check_eq. cbv zeta. assert (LP : len (w_cds (push_cd w1 (wh_cd e' d off))) = len (w_cds w) + 1).
      { cbn. rewrite C1, len_app. reflexivity. }
      rewrite LP. change NON_ZIP64_MAX_NUM_FILES with 65535. destruct (65535 <? len (w_cds w) + 1); cbn [andb]; [destruct fn|]; (split; [|easy]);
        intros y E [->| [->| ->]]; discriminate.
    + split.
      * intros y E _. injection E as <-. destruct (i_big it), (is_over (i_off it)); cbn [negb andb] in L4; try lia.
        split; [easy|]. split; [easy|]. split; [easy|]. split; [exact C1|lia].
      * intros _ H. exfalso. destruct (i_big it), (is_over (i_off it)); cbn [negb andb] in L4; try lia; destruct H as [H|[H|H]]; try discriminate; lia.
  - destruct P as (io & p & -> & _ & M & F). split.
    + intros y E [->| [->| ->]]; discriminate.
    + intros S. exfalso. destruct M as [M _]. assert (SW : w_sched (wh_world e' d w) = []) by (unfold w_sched; now rewrite WB).
      rewrite SW in M. symmetry in M. apply app_eq_nil in M as [-> _]. destruct F as (ev & [] & _).
Qed.

Lemma compress_no_panic cd c l d p : enc_takes cd -> c <> Stored -> c <> Deflate64 -> compress cd c l d = Panic p -> False.
Proof.
  intros T A B H. unfold compress in H. pose proof (enc_all_no_panic cd T (S (length d)) (enc_init cd c l) d ltac:(lia)) as Q.
  destruct c; try congruence; (destruct (enc_all _ _ _ _) as [q|q|q]; cbn in H; try discriminate; now elim (Q q)).
Qed.
Lemma whole_outcome cd o e w : enc_takes cd -> whole_call o -> op_entry o = Some e -> Forall no_disk (en_extra e) ->
  exists it flag lx, leaves cd (w_force_no w) o it /\ i_off it = w_offset w /\
    texts (en_filename e) (en_comment e) flag (en_extra e ++ local_zip64 it) lx /\
    outcome_of w it lx (fst (run_op cd o w)) (snd (run_op cd o w)).
Proof.
  intros T WC OE ND. destruct o as [| | |e0 d|e0 d|]; try easy; cbn in OE; injection OE as ->; cbn [run_op].
  - unfold write_entry_whole. cbv zeta. cbn [whole_call] in WC.
    replace (en_compression (set_crc32 (set_uncompressed_size e (len d)) (crc32 d))) with (en_compression e) by reflexivity.
    replace (en_level (set_crc32 (set_uncompressed_size e (len d)) (crc32 d))) with (en_level e) by reflexivity.
    fold (measured e (len d) (crc32 d)).
    assert (Z : exists z, compressed cd (en_compression e) d z /\
      (match en_compression e with Stored => whole_write_body (measured e (len d) (crc32 d)) d
       | c => z <- lift (compress cd c (en_level e) d) ;; whole_write_body (measured e (len d) (crc32 d)) z end) w =
      whole_write_body (measured e (len d) (crc32 d)) z w).
    { destruct (en_compression e) eqn:CE; [exists d; split; [now apply comp_stored|reflexivity]| |congruence|..];
        (destruct (compress cd _ (en_level e) d) as [z|x|p] eqn:CZ;
         [exists z; split; [eapply compress_compressed; eassumption|reflexivity]
         |exact (False_ind _ (compress_no_err _ _ _ _ _ CZ))
         |exfalso; eapply (compress_no_panic cd); [exact T| | |exact CZ]; discriminate]). }
    destruct Z as (z & CZ & ->).
    destruct (whole_body_outcome (w_force_no w) e (len d) (crc32 d) z w eq_refl ND) as (flag & lx & TX & H).
    exists (whole_item (w_force_no w) e (len d) (crc32 d) z (w_offset w)), flag, lx.
    split; [rewrite crc32_is_spec; now apply leaves_whole|]. split; [reflexivity|]. split; [exact TX|].
    now destruct (whole_write_body _ z w).
  - unfold write_entry_whole_precompressed. rewrite <- (f_equal (fun e => whole_write_body e d w) (measured_self e)).
    destruct (whole_body_outcome (w_force_no w) e (en_uncompressed_size e) (en_crc32 e) d w eq_refl ND) as (flag & lx & TX & H).
    exists (whole_item (w_force_no w) e (en_uncompressed_size e) (en_crc32 e) d (w_offset w)), flag, lx.
    split; [apply leaves_pre|]. split; [reflexivity|]. split; [exact TX|]. now destruct (whole_write_body _ d w).
Qed.

(** ** ZIP64 forbidden *)
Definition shut {A} (m : SM world A) : Prop := forall w, w_force_no w = true -> w_force_no (snd (m w)) = true /\ w_zip64 (snd (m w)) = w_zip64 w.
Lemma shut_ret {A} (a : A) : shut (ret a). Proof. easy. Qed.
Lemma shut_fail {A} e : shut (@fail _ A e). Proof. easy. Qed.
Lemma shut_lift {A} (r : res A) : shut (lift r). Proof. easy. Qed.
Lemma shut_bind {A B} (m : SM world A) (k : A -> SM world B) : shut m -> (forall a, shut (k a)) -> shut (bind m k).
Proof.
  intros Hm Hk w F. unfold bind. specialize (Hm w F). destruct (m w) as [[a|e|p] w1]; [|easy|easy]. cbn [snd] in Hm. destruct Hm as [F1 Z1].
  destruct (Hk a w1 F1) as [F2 Z2]. split; congruence.
Qed.
Lemma shut_get {A} (k : world -> SM world A) : (forall v, w_force_no v = true -> shut (k v)) -> shut (bind get k).
Proof. intros H w F. exact (H w F w F). Qed.
Lemma shut_moved w w' b u f : moved w w' b u f -> w_force_no w = true -> w_force_no w' = true /\ w_zip64 w' = w_zip64 w.
Proof. intros [_ ->] F. easy. Qed.
Lemma shut_write_all b : shut (write_all b).
Proof.
  intros w F. pose proof (write_all_spec b w) as S. destruct (write_all b w) as [[n|e|p] w']; destruct S as (u & S); [| |easy].
  - destruct S as (M & _). eapply shut_moved; eassumption.
  - destruct S as (io & p & _ & _ & M & _). eapply shut_moved; eassumption.
Qed.
Lemma shut_ow_write b : shut (ow_write b).
Proof.
  intros w F. pose proof (ow_write_spec b w) as S. destruct (ow_write b w) as [[n|e|p] w']; destruct S as (u & S); [| |easy].
  - destruct S as (_ & M & _). eapply shut_moved; eassumption.
  - destruct S as (io & _ & M & _). eapply shut_moved; eassumption.
Qed.
Lemma shut_ow_flush : shut ow_flush.
Proof.
  intros w F. pose proof (ow_flush_spec w) as S. destruct (ow_flush w) as [[n|e|p] w']; destruct S as (u & S); [| |easy].
  - destruct S as (_ & M & _). eapply shut_moved; eassumption.
  - destruct S as (io & _ & M & _). eapply shut_moved; eassumption.
Qed.
Lemma shut_enforce : shut enforce_zip64.
Proof. intros w F. unfold enforce_zip64. now rewrite F. Qed.
Lemma shut_push c : shut (push_and_check true c).
Proof. intros w F. rewrite push_and_check_eq. cbv zeta. now destruct (_ <? _). Qed.
Ltac shut_tac :=
  cbv beta;
  lazymatch goal with
  | |- shut (bind get _) => apply shut_get; let v := fresh "v" in let F := fresh "FN" in intros v F; rewrite ?F; cbv beta; cbn [negb]; shut_tac
  | |- shut (bind _ _) => apply shut_bind; [shut_tac|intro; shut_tac]
  | |- shut (let x := ?v in _) => cbv zeta; shut_tac
  | |- shut (match ?x with _ => _ end) => destruct x; shut_tac
  | |- shut (ret _) => apply shut_ret
  | |- shut (fail _) => apply shut_fail
  | |- shut (lift _) => apply shut_lift
  | |- shut (write_all _) => apply shut_write_all
  | |- shut (ow_write _) => apply shut_ow_write
  | |- shut ow_flush => apply shut_ow_flush
  | |- shut enforce_zip64 => apply shut_enforce
  | |- shut (push_and_check true _) => apply shut_push
  | |- _ => idtac
  end.
Lemma shut_whole_body e d : shut (whole_write_body e d).
Proof. unfold whole_write_body, enforce_zip64_sizes, enforce_zip64_offset. shut_tac. Qed.
Lemma shut_whole cd e d : shut (write_entry_whole cd e d).
Proof. unfold write_entry_whole. shut_tac; apply shut_whole_body. Qed.
Lemma shut_write_lfh e : shut (write_lfh e).
Proof. unfold write_lfh. shut_tac. Qed.
Lemma shut_stream_write {cd} (sw : stream_writer cd) b : shut (stream_write sw b).
Proof. unfold stream_write. shut_tac. Qed.
(** a stream writer that knows of the prohibition keeps knowing *)
Definition shut_sw {cd} (m : SM world (stream_writer cd)) : Prop := forall w, w_force_no w = true ->
  w_force_no (snd (m w)) = true /\ w_zip64 (snd (m w)) = w_zip64 w /\ forall sw, fst (m w) = Ok sw -> sw_force_no sw = true.
Lemma shut_sw_bind {A cd} (m : SM world A) (k : A -> SM world (stream_writer cd)) : shut m -> (forall a, shut_sw (k a)) -> shut_sw (bind m k).
Proof.
  intros Hm Hk w F. unfold bind. specialize (Hm w F). destruct (m w) as [[a|e|p] w1]; cbn [snd fst] in *; destruct Hm as [F1 Z1]; [|now ands..].
  destruct (Hk a w1 F1) as (F2 & Z2 & Q). split; [exact F2|]. split; [congruence|exact Q].
Qed.
Lemma shut_sw_then {B cd} (m : SM world (stream_writer cd)) (k : stream_writer cd -> SM world B) :
  shut_sw m -> (forall sw, sw_force_no sw = true -> shut (k sw)) -> shut (bind m k).
Proof.
  intros Hm Hk w F. unfold bind. specialize (Hm w F). destruct (m w) as [[a|e|p] w1]; cbn [snd fst] in *; destruct Hm as (F1 & Z1 & Q); [|easy|easy].
  destruct (Hk a (Q a eq_refl) w1 F1) as [F2 Z2]. split; congruence.
Qed.
Lemma shut_sw_seq {cd} (m : SM world (stream_writer cd)) (k : stream_writer cd -> SM world (stream_writer cd)) :
  shut_sw m -> (forall sw, sw_force_no sw = true -> shut_sw (k sw)) -> shut_sw (bind m k).
Proof.
  intros Hm Hk w F. unfold bind. specialize (Hm w F). destruct (m w) as [[a|e|p] w1]; cbn [snd fst] in *; destruct Hm as (F1 & Z1 & Q); [|now ands..].
  destruct (Hk a (Q a eq_refl) w1 F1) as (F2 & Z2 & Q2). split; [exact F2|]. split; [congruence|exact Q2].
Qed.
Lemma shut_sw_ret {cd} (sw : stream_writer cd) : sw_force_no sw = true -> shut_sw (ret sw).
Proof. intros H w F. split; [exact F|]. split; [reflexivity|]. intros s E. injection E as <-. exact H. Qed.
Lemma shut_sw_none {cd} (m : SM world (stream_writer cd)) : shut m -> (forall w sw, fst (m w) <> Ok sw) -> shut_sw m.
Proof. intros H N w F. destruct (H w F) as [A B]. split; [exact A|]. split; [exact B|]. intros sw E. now elim (N w sw). Qed.
Lemma shut_stream_open cd pre e : shut_sw (stream_open cd pre e).
Proof.
  unfold stream_open. intros w F. unfold bind at 1. unfold get at 1. cbv beta iota zeta. revert w F. 
  assert (G : forall off, shut_sw ('(e, h) <- write_lfh e ;; w <- get ;;
    enc <- lift (if pre then Ok None else match en_compression e with Stored => Ok None | Deflate64 => Panic PUnsupported | c => Ok (Some (enc_init cd c LDefault)) end) ;;
    ret {| sw_entry := e; sw_lfh := h; sw_lfh_offset := off; sw_data_offset := w_offset w;
         sw_hasher := hasher_new; sw_force_no := w_force_no w; sw_pre := pre; sw_uoffset := 0; sw_enc := enc |})).
  { intro off. apply shut_sw_bind; [apply shut_write_lfh|]. intros [e1 h1]. intros w F. unfold bind, get, lift.
    destruct (if pre then _ else _) as [enc|x|x]; cbn; (split; [exact F|]); (split; [reflexivity|]); intros sw E; [|discriminate|discriminate].
    injection E as <-. exact F. }
  intros w F. exact (G (w_offset w) w F).
Qed.
Lemma shut_stream_write_sw {cd} (sw : stream_writer cd) b (k : N -> stream_writer cd -> SM world (stream_writer cd)) :
  sw_force_no sw = true -> (forall n sw', sw_force_no sw' = true -> shut_sw (k n sw')) -> shut_sw ('(n, sw') <- stream_write sw b ;; k n sw').
Proof.
  intros S K w F. unfold bind. pose proof (shut_stream_write sw b w F) as [F1 Z1].
  assert (Q : forall n sw', fst (stream_write sw b w) = Ok (n, sw') -> sw_force_no sw' = true).
  { intros n sw' E. unfold stream_write in E. destruct (sw_enc sw) as [st|].
    - destruct (enc_write cd st b) as [[m o] st']. unfold bind in E. destruct (write_all o w) as [[|?|?] w1]; cbn in E; try discriminate.
      injection E as _ <-. exact S.
    - unfold bind in E. destruct (ow_write b w) as [[m|?|?] w1]; cbn in E; try discriminate. injection E as _ <-. exact S. }
  destruct (stream_write sw b w) as [[[n sw']|x|x] w1]; cbn [fst snd] in *; [|now ands..].
  destruct (K n sw' (Q n sw' eq_refl) w1 F1) as (F2 & Z2 & Q2). split; [exact F2|]. split; [congruence|exact Q2].
Qed.
Lemma shut_write_all_sw {cd} : forall fu (sw : stream_writer cd) b, sw_force_no sw = true -> shut_sw (stream_write_all_loop fu sw b).
Proof.
  induction fu as [|fu IH]; intros sw b S; cbn [stream_write_all_loop]; [apply shut_sw_none; [apply shut_lift|discriminate]|].
  destruct (len b =? 0); [now apply shut_sw_ret|]. apply shut_stream_write_sw; [exact S|]. intros n sw' S'.
  destruct (n =? 0); [apply shut_sw_none; [apply shut_fail|discriminate]|now apply IH].
Qed.
Lemma shut_stream_flush {cd} (sw : stream_writer cd) : sw_force_no sw = true -> shut_sw (stream_flush sw).
Proof.
  intro S. unfold stream_flush. destruct (sw_enc sw) as [st|]; [destruct (enc_flush cd st) as [o st']|];
    repeat (apply shut_sw_bind; [shut_tac|intro]); now apply shut_sw_ret.
Qed.
Lemma shut_stream_body {cd} l : forall sw : stream_writer cd, sw_force_no sw = true -> shut_sw (stream_body sw l).
Proof.
  induction l as [|[b|] l IH]; intros sw S; cbn [stream_body]; [now apply shut_sw_ret| |].
  - apply shut_sw_seq; [now apply shut_write_all_sw|apply IH].
  - apply shut_sw_seq; [now apply shut_stream_flush|apply IH].
Qed.
Lemma shut_stream_close {cd} (sw : stream_writer cd) : sw_force_no sw = true -> shut (stream_close sw).
Proof. intro S. unfold stream_close, compressed_close, shutdown_ignored_close. rewrite S. shut_tac. Qed.
Lemma run_op_shut cd o : o <> OpForceZip64 -> shut (run_op cd o).
Proof.
  intro H. destruct o; cbn [run_op]; try (now intros w F); try congruence.
  - apply shut_whole.
  - apply shut_whole_body.
  - apply shut_sw_then; [apply shut_stream_open|]. intros sw S. apply shut_sw_then; [now apply shut_stream_body|]. intros sw' S'.
    destruct closed; [now apply shut_stream_close|apply shut_ret].
Qed.
Lemma run_ops_shut cd l : ~ In OpForceZip64 l -> forall w, w_force_no w = true -> w_zip64 w = false -> w_zip64 (snd (run_ops cd l w)) = false.
Proof.
  induction l as [|o l IH]; intros N w F Z; [exact Z|]. cbn [run_ops]. 
  destruct (run_op_shut cd o ltac:(intro; subst; apply N; now left) w F) as [F1 Z1]. destruct (run_op cd o w) as [r w1]. cbn [snd] in *.
  specialize (IH ltac:(intro; apply N; now right) w1 F1 ltac:(congruence)). now destruct (run_ops cd l w1).
Qed.
