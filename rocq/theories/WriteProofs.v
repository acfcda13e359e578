(** Histories of writer calls: schedules, faults, panics. *)
From Verif Require Import Base BaseFacts Crc32 ZString ZDate Headers ExtraField ExtraFieldFacts Entry IO EntryReader Writer WriterFacts
  WholeFacts StreamFacts SpecWrite.
Ltac ands := repeat match goal with |- _ /\ _ => split end.
Arguments N.add : simpl never.
Arguments N.sub : simpl never.

(** ** Offset *)
Lemma evol_offset w w' : evol w w' -> w_offset w = len (w_bytes w) -> w_offset w' = len (w_bytes w').
Proof. intros ((b & B & O) & _) H. rewrite B, O, len_app. now rewrite H. Qed.
Lemma poll_write_offset buf w : w_offset w = len (w_bytes w) ->
  let '(p, w') := ow_poll_write buf w in
  w_offset w' = len (w_bytes w') /\
  exists n, w_bytes w' = w_bytes w ++ firstn n buf /\ match p with WDone m => m = len (firstn n buf) | _ => n = O end.
Proof.
  intro H. unfold ow_poll_write, sink_poll_write. destruct w as [[kw kf kc ks] o c fn z cm]. unfold w_bytes in *. cbn in H |- *. subst o.
  assert (G : forall n, n <= len buf -> len kw + n = len (kw ++ take n buf) /\
    exists m, kw ++ take n buf = kw ++ firstn m buf /\ n = len (firstn m buf)).
  { intros n Hn. rewrite len_app, len_take, N.min_l by lia. split; [easy|]. exists (N.to_nat n). rewrite take_firstn.
    split; [easy|]. unfold len in *. rewrite firstn_length. lia. }
  destruct ks as [|[|k|code] ks]; cbn; unfold len in *.
  - apply G. lia.
  - split; [easy|]. exists O. now rewrite app_nil_r.
  - apply G. lia.
  - split; [easy|]. exists O. now rewrite app_nil_r.

Qed.
Lemma run_ops_offset cd l sched : let w := snd (run_ops cd l (zw_new sched)) in w_offset w = len (w_bytes w).
Proof. apply (evol_offset (zw_new sched)); [apply evol_run_ops|reflexivity]. Qed.

(** ** Same calls on any schedule *)
Lemma obliging_steady l : obliging l -> steady l.
Proof.
  unfold obliging, steady. apply Forall_impl. intros [|n|c] H e F; cbn in *; [easy|now destruct F|easy].
Qed.
Lemma run_op_calm cd o w : steady (w_sched w) ->
  let '(r, w') := run_op cd o w in let '(r0, w0) := run_op cd o (calmw w) in
  r = r0 /\ calmw w' = w0 /\ steady (w_sched w').
Proof.
  intro S. pose proof (wsim_run_op cd o w) as H. unfold sim_at in H.
  destruct (run_op cd o w) as [r w'], (run_op cd o (calmw w)) as [r0 w0].
  destruct H as (_ & _ & u & U & [(-> & -> & _)|(io & _ & F & _)]); rewrite U in S; apply steady_app in S as [S1 S2].
  - auto.
  - now apply (steady_faulty u io) in F.
Qed.
Lemma run_ops_calm cd l : forall w, steady (w_sched w) ->
  let '(xs, w') := run_ops cd l w in let '(xs0, w0) := run_ops cd l (calmw w) in
  xs = xs0 /\ calmw w' = w0 /\ steady (w_sched w').
Proof.
  induction l as [|o l IH]; intros w S; cbn [run_ops]; [auto|].
  pose proof (run_op_calm cd o w S) as H. destruct (run_op cd o w) as [r w1], (run_op cd o (calmw w)) as [r0 w10].
  destruct H as (<- & <- & S1). specialize (IH w1 S1). destruct (run_ops cd l w1) as [xs w2], (run_ops cd l (calmw w1)) as [xs0 w20].
  destruct IH as (<- & <- & S2). auto.
Qed.
Lemma run_archive_calm cd sched l : obliging sched ->
  let '(xs, r, w) := run_archive cd sched l in let '(xs0, r0, w0) := run_archive cd [] l in
  xs = xs0 /\ r = r0 /\ w_bytes w = w_bytes w0.
Proof.
  intro S. apply obliging_steady in S. unfold run_archive. pose proof (run_ops_calm cd l (zw_new sched) S) as H.
  change (calmw (zw_new sched)) with (zw_new []) in H.
  destruct (run_ops cd l (zw_new sched)) as [xs w1], (run_ops cd l (zw_new [])) as [xs0 w10].
  destruct H as (<- & <- & S1). pose proof (wsim_close w1) as H. unfold sim_at in H.
  destruct (zw_close w1) as [r w'], (zw_close (calmw w1)) as [r0 w0].
  destruct H as (_ & _ & u & U & [(-> & <- & _)|(io & _ & F & _)]); rewrite U in S1; apply steady_app in S1 as [S2 S3].
  - auto.
  - now apply (steady_faulty u io) in F.
Qed.

(** ** Stopping at an error *)
Lemma run_until_grows stop l : Forall grows l -> forall w, prefix (w_bytes w) (w_bytes (snd (run_until stop l w))).
Proof.
  induction 1 as [|m l G _ IH]; intro w; cbn [run_until]; [apply prefix_refl|].
  specialize (G w). destruct (m w) as [r w1]. cbn [snd] in G. destruct G as ((b & B & _) & _).
  assert (P : prefix (w_bytes w) (w_bytes w1)) by (rewrite B; apply prefix_app).
  destruct (stop r); [exact P|]. specialize (IH w1). destruct (run_until stop l w1) as [rs w2]. cbn [snd] in *.
  eapply prefix_trans; eassumption.
Qed.
Lemma run_until_sim stop l : (forall r, upstream r -> stop r = true) -> Forall wsim l -> Forall grows l -> forall w,
  let '(rs, w') := run_until stop l w in let '(rs0, w0) := run_until stop l (calmw w) in
  exists u, w_sched w = u ++ w_sched w' /\ prefix (w_bytes w') (w_bytes w0) /\
    ((rs = rs0 /\ w_bytes w' = w_bytes w0 /\ nofault u) \/ (exists rs1 r, rs = rs1 ++ [r] /\ upstream r)).
Proof.
  intros Hs. induction 1 as [|m l M _ IH]; intros G w; cbn [run_until].
  - exists []. split; [easy|]. split; [apply prefix_refl|]. left. repeat split. constructor.
  - inversion G as [|x y Gm Gl]; subst. specialize (M w). unfold sim_at in M. 
    pose proof (run_until_grows stop l Gl (snd (m (calmw w)))) as P0.
    destruct (m w) as [r w1], (m (calmw w)) as [r0 w10].
    destruct M as (C & P & u & U & [(-> & <- & NF)|(io & -> & F & P1)]).
    + destruct (stop r0).
      * exists u. split; [easy|]. split; [apply prefix_refl|]. left. auto.
      * specialize (IH Gl w1). destruct (run_until stop l w1) as [rs w2], (run_until stop l (calmw w1)) as [rs0 w20].
        destruct IH as (v & V & P2 & [(-> & B & NF2)|(rs1 & r & -> & UP)]).
        { exists (u ++ v). rewrite U, V, app_assoc. split; [easy|]. split; [easy|]. left. auto using nofault_app. }
        { exists (u ++ v). rewrite U, V, app_assoc. split; [easy|]. split; [easy|]. right. exists (r0 :: rs1), r. now rewrite app_comm_cons. }
    + rewrite Hs by (now exists io). cbn [snd] in P0.
      assert (PP : prefix (w_bytes w1) (w_bytes (snd (if stop r0 then ([r0], w10) else let '(rs, w2) := run_until stop l w10 in (r0 :: rs, w2))))).
      { destruct (stop r0); [exact P1|]. destruct (run_until stop l w10) as [rs w2]. cbn [snd] in *. eapply prefix_trans; eassumption. }
      destruct (if stop r0 then ([r0], w10) else let '(rs, w2) := run_until stop l w10 in (r0 :: rs, w2)) as [rs0 w0].
      exists u. split; [easy|]. split; [exact PP|]. right. exists [], (Err (UpstreamReadError io)). split; [easy|]. now exists io.
Qed.
Lemma calls_sim cd l : Forall wsim (calls cd l) /\ Forall grows (calls cd l).
Proof.
  unfold calls. split; apply Forall_app; (split; [apply Forall_map, Forall_forall; intros; first [apply wsim_run_op | apply grows_run_op]|]);
    constructor; first [apply wsim_close | apply grows_close | constructor].
Qed.
Lemma fault_prefix stop cd sched l : (forall io, stop (Err (UpstreamReadError io)) = true) ->
  let '(rs, w) := run_until stop (calls cd l) (zw_new sched) in
  let '(rs0, w0) := run_until stop (calls cd l) (zw_new []) in
  prefix_of (w_bytes w) (w_bytes w0) /\
  ((rs = rs0 /\ w_bytes w = w_bytes w0) \/ (exists rs1 r, rs = rs1 ++ [r] /\ upstream r)) /\
  (forall used c, sched = used ++ k_sched (w_sink w) -> In (WFail c) used -> exists rs1 r, rs = rs1 ++ [r] /\ upstream r).
Proof.
  intro Hs. destruct (calls_sim cd l) as [S G].
  pose proof (run_until_sim stop (calls cd l) ltac:(intros r [io ->]; apply Hs) S G (zw_new sched)) as H.
  change (calmw (zw_new sched)) with (zw_new []) in H.
  destruct (run_until stop (calls cd l) (zw_new sched)) as [rs w], (run_until stop (calls cd l) (zw_new [])) as [rs0 w0].
  destruct H as (u & U & P & H). change (w_sched (zw_new sched)) with sched in U.
  split; [easy|]. split; [destruct H as [(?&?&?)|?]; auto|].
  intros used c E I. destruct H as [(_ & _ & NF)|H]; [|easy]. exfalso. rewrite U in E. apply app_inv_tail in E. subst u.
  unfold nofault in NF. rewrite Forall_forall in NF. exact (NF _ I).
Qed.

(** ** Panics *)
Lemma puts_no_panic l w : no_panic (fst (puts l w)).
Proof. pose proof (puts_ok l w) as P. intros p E. unfold put_ok in P. destruct P as (u & P). now rewrite E in P. Qed.
Lemma bind_no_panic {A B} (m : SM world A) (k : A -> SM world B) w : no_panic (fst (m w)) ->
  (forall a w1, m w = (Ok a, w1) -> no_panic (fst (k a w1))) -> no_panic (fst (bind m k w)).
Proof.
  unfold bind. intros H1 H2. destruct (m w) as [[a|e|p] w1]; [now apply H2|intros ? E; discriminate|].
  intros q E. now apply (H1 p).
Qed.
Lemma push_no_panic fn c w : no_panic (fst (push_and_check fn c w)).
Proof. rewrite push_and_check_eq. cbv zeta. destruct (_ <? _); [destruct fn|]; intros p E; discriminate. Qed.
Lemma whole_body_no_panic e d w : no_panic (fst (whole_write_body e d w)).
Proof.
  rewrite whole_body_eq. cbv zeta. destruct (_ && _); [intros p E; discriminate|].
  destruct (wh_refused _ _ _); [intros p E; discriminate|].
  apply bind_no_panic; [apply puts_no_panic|]. intros a w1 _. destruct (_ <? _); [apply push_no_panic|intros p E; discriminate].
Qed.
Lemma enc_all_no_panic cd : enc_takes cd -> forall fu st buf, (length buf < fu)%nat -> no_panic (enc_all cd fu st buf).
Proof.
  intro T. induction fu as [|fu IH]; intros st buf L; [lia|]. cbn [enc_all].
  destruct (N.eqb_spec (len buf) 0) as [E|E]; [intros p H; discriminate|].
  specialize (T st buf ltac:(intros ->; now apply E)). destruct (enc_write cd st buf) as [[n out] st']. destruct T as [T1 T2].
  rewrite (proj2 (N.eqb_neq n 0)) by lia. 
  assert (L' : (length (drop n buf) < fu)%nat) by (pose proof (len_drop n buf); unfold len in *; lia).
  specialize (IH st' (drop n buf) L'). destruct (enc_all cd fu st' (drop n buf)) as [x|x|q]; cbn; [intros p H; discriminate|intros p H; discriminate|].
  now elim (IH q).
Qed.
Lemma whole_no_panic cd e d w : enc_takes cd -> en_compression e <> Deflate64 -> no_panic (fst (write_entry_whole cd e d w)).
Proof.
  intros T ND. unfold write_entry_whole. cbn [en_compression set_crc32 set_uncompressed_size].
  destruct (en_compression e) eqn:C; [apply whole_body_no_panic| |easy|..];
    (apply bind_no_panic; [|intros; apply whole_body_no_panic]); unfold lift, compress; cbn [fst];
    pose proof (enc_all_no_panic cd T (S (length d)) (enc_init cd (en_compression e) (en_level e)) d ltac:(lia)) as H; rewrite C in H;
    cbn [en_level set_crc32 set_uncompressed_size];
    (destruct (enc_all _ _ _ _) as [x|x|q]; [intros p E; discriminate|intros p E; discriminate|now elim (H q)]).
Qed.
Lemma so_count fn e : so_refused fn e = None ->
  fields_count_bytes (en_extra (so_e3 fn e)) < 65536 /\ len (basic_bytes (en_filename (so_e3 fn e))) < 65536.
Proof.
  unfold so_refused. cbv zeta. destruct (N.ltb_spec (fields_count_bytes (en_extra (so_e3 fn e))) 65536); [|discriminate]. cbn [negb].
  destruct (N.ltb_spec (len (basic_bytes (en_filename (so_e3 fn e)))) 65536); [easy|discriminate].
Qed.
Lemma close_rest_no_panic {cd} (sw : stream_writer cd) w : no_panic (fst (close_rest sw w)).
Proof.
  unfold close_rest. cbv zeta. destruct (_ && _); [intros p E; discriminate|]. destruct (negb _); [intros p E; discriminate|].
  apply bind_no_panic; [apply puts_no_panic|]. intros a w1 _. destruct (_ <? _); [apply push_no_panic|intros p E; discriminate].
Qed.
Lemma stream_no_panic cd pre e body closed w : enc_takes cd -> (pre = true \/ en_compression e <> Deflate64) ->
  no_panic (fst (run_op cd (OpStream pre e body closed) w)).
Proof.
  intros T ND. cbn [run_op]. pose proof (stream_open_spec cd pre e w) as O. cbv zeta in O.
  set (fn := w_force_no w) in *.
  apply bind_no_panic.
  - destruct (stream_open cd pre e w) as [r w1]. cbn [fst]. intros p ->. destruct (fn && so_big e); [now destruct O|].
    destruct (so_refused fn e); [now destruct O|]. destruct O as (u & -> & -> & E & _). now destruct ND.
  - intros sw w1 E1. rewrite E1 in O. destruct (fn && so_big e); [now destruct O|].
    destruct (so_refused fn e) as [x|] eqn:R; [now destruct O|]. destruct O as (u & _ & _ & enc & _ & ->).
    destruct (so_count _ _ R) as [C1 _].
    pose proof (stream_body_ok body T (opened pre fn e (w_offset w) (w_offset w + len (head_bytes (so_lfh fn e) (so_e3 fn e))) enc) w1) as B.
    destruct (feed_ops _ body) as [out enc']. unfold fed_ok in B.
    apply bind_no_panic.
    + intros p E. rewrite E in B. now destruct B.
    + intros sw2 w2 E2. rewrite E2 in B. cbn [fst] in B. destruct B as (u2 & f & _ & ->).
      destruct closed; [|intros p E; discriminate].
      rewrite stream_close_eq; [|exact C1|reflexivity].
      apply bind_no_panic; [apply puts_no_panic|]. intros; apply close_rest_no_panic.
Qed.
Lemma run_op_no_panic cd o w : enc_takes cd -> ~ asks_deflate64 o -> no_panic (fst (run_op cd o w)).
Proof.
  intros T ND. destruct o; try (intros p E; discriminate).
  - now apply whole_no_panic.
  - apply whole_body_no_panic.
  - apply stream_no_panic; [easy|]. destruct pre; [now left|right; exact ND].
Qed.

(** the directory entries are written without an unwrap failing: every recorded extra block is short *)
Definition cds_short (w : world) : Prop := Forall (fun c => fields_count_bytes (en_extra (ce_entry c)) < 65536) (w_cds w).
Lemma cds_short_same w w' : w_cds w' = w_cds w -> cds_short w -> cds_short w'.
Proof. unfold cds_short. now intros ->. Qed.
Lemma push_cds fn c w : w_cds (snd (push_and_check fn c w)) = w_cds w ++ [c].
Proof. rewrite push_and_check_eq. cbv zeta. destruct (_ <? _); [destruct fn|]; reflexivity. Qed.
Lemma puts_cds l w : w_cds (snd (puts l w)) = w_cds w.
Proof.
  pose proof (puts_ok l w) as P. destruct P as (u & P). destruct (fst (puts l w)) as [x|e|p]; [| |easy].
  - destruct P as [M _]. exact (moved_cds _ _ _ _ _ M).
  - destruct P as (io & p & _ & _ & M & _). exact (moved_cds _ _ _ _ _ M).
Qed.
Lemma puts_then_cds (l : list bytes) (k : SM world unit) w : forall P : world -> Prop,
  (forall w1, w_cds w1 = w_cds w -> P w1) -> (forall w1, w_cds w1 = w_cds w -> P (snd (k w1))) -> P (snd ((puts l ;;; k) w)).
Proof.
  intros P H1 H2. unfold bind. pose proof (puts_cds l w) as E. destruct (puts l w) as [[x|e|p] w1]; cbn [snd] in *; auto.
Qed.
Lemma cds_short_push fn c w w1 : cds_short w -> w_cds w1 = w_cds w -> fields_count_bytes (en_extra (ce_entry c)) < 65536 ->
  cds_short (snd (push_and_check fn c w1)).
Proof. intros S E L. unfold cds_short in *. rewrite push_cds, E. apply Forall_app. split; [easy|]. now constructor. Qed.
Lemma cds_short_whole_body e d w : cds_short w -> cds_short (snd (whole_write_body e d w)).
Proof.
  intro S. rewrite whole_body_eq. cbv zeta. destruct (_ && _); [exact S|].
  assert (W : w_cds (wh_world e d w) = w_cds w) by (unfold wh_world; now destruct (_ || _)).
  destruct (wh_refused _ _ _); [now apply (cds_short_same w)|].
  apply puts_then_cds; [intros w1 E; apply (cds_short_same w); congruence|].
  intros w1 E. destruct (N.ltb_spec (fields_count_bytes (en_extra (wh_e4 e d (w_offset w)))) 65536) as [L|L].
  - apply (cds_short_push _ _ w); [easy|congruence|exact L].
  - apply (cds_short_same w); [cbn; congruence|easy].
Qed.
Lemma cds_short_close_rest {cd} (sw : stream_writer cd) w : cds_short w -> cds_short (snd (close_rest sw w)).
Proof.
  intro S. unfold close_rest. cbv zeta. destruct (_ && _); [exact S|].
  destruct (N.ltb_spec (fields_count_bytes (en_extra (sc_e2 sw (w_offset w - sw_data_offset sw)))) 65536) as [L|L]; [cbn [negb]|exact S].
  apply puts_then_cds; [intros w1 E; now apply (cds_short_same w)|].
  intros w1 E. destruct (_ <? _).
  - apply (cds_short_push _ _ w); [easy|easy|exact L].
  - now apply (cds_short_same w).
Qed.
Lemma cds_short_stream cd pre e body closed w : enc_takes cd -> cds_short w -> cds_short (snd (run_op cd (OpStream pre e body closed) w)).
Proof.
  intros T S. cbn [run_op]. pose proof (stream_open_spec cd pre e w) as O. cbv zeta in O. set (fn := w_force_no w) in *.
  unfold bind at 1. destruct (stream_open cd pre e w) as [r w1].
  destruct (fn && so_big e); [now destruct O as [-> ->]|].
  assert (W : w_cds (so_world w) = w_cds w) by (unfold so_world; now destruct (w_force_no w)).
  destruct (so_refused fn e) as [x|] eqn:R; [destruct O as [-> ->]; now apply (cds_short_same w)|].
  destruct O as (u & O). destruct r as [sw|x|p].
  - destruct O as (M & _ & enc & _ & ->). destruct (so_count _ _ R) as [C1 _].
    assert (S1 : cds_short w1) by (apply (cds_short_same w); [rewrite (moved_cds _ _ _ _ _ M); congruence|easy]).
    pose proof (stream_body_ok body T (opened pre fn e (w_offset w) (w_offset w + len (head_bytes (so_lfh fn e) (so_e3 fn e))) enc) w1) as B.
    destruct (feed_ops _ body) as [out enc']. unfold fed_ok in B. unfold bind at 1.
    destruct (stream_body _ body w1) as [[sw2|x|p] w2]; cbn [fst snd] in B; [| |now destruct B].
    + destruct B as (u2 & f & M2 & ->).
      assert (S2 : cds_short w2) by (apply (cds_short_same w1); [exact (moved_cds _ _ _ _ _ M2)|easy]).
      destruct closed; [|exact S2]. rewrite stream_close_eq; [|exact C1|reflexivity].
      apply puts_then_cds; [intros; now apply (cds_short_same w2)|]. intros w3 E3. apply cds_short_close_rest. now apply (cds_short_same w2).
    + destruct B as (u2 & io & p & f & _ & _ & M2 & _). cbn [snd]. apply (cds_short_same w1); [exact (moved_cds _ _ _ _ _ M2)|easy].
  - destruct O as (io & p & _ & _ & M & _). cbn [snd]. apply (cds_short_same w); [rewrite (moved_cds _ _ _ _ _ M); congruence|easy].
  - destruct O as (_ & _ & _ & M). cbn [snd]. apply (cds_short_same w); [rewrite (moved_cds _ _ _ _ _ M); congruence|easy].
Qed.
Lemma cds_short_run_op cd o w : enc_takes cd -> cds_short w -> cds_short (snd (run_op cd o w)).
Proof.
  intros T S. destruct o; try exact S.
  - cbn [run_op]. unfold write_entry_whole. cbv zeta.
    destruct (en_compression _); [now apply cds_short_whole_body|..]; unfold bind, lift;
    (destruct (compress _ _ _ _); [now apply cds_short_whole_body|exact S|exact S]).
  - now apply cds_short_whole_body.
  - now apply cds_short_stream.
Qed.
Lemma cds_short_run_ops cd l : enc_takes cd -> forall w, cds_short w -> cds_short (snd (run_ops cd l w)).
Proof.
  intro T. induction l as [|o l IH]; intros w S; [exact S|]. cbn [run_ops].
  pose proof (cds_short_run_op cd o w T S) as S1. destruct (run_op cd o w) as [r w1]. specialize (IH w1 S1).
  destruct (run_ops cd l w1). exact IH.
Qed.
Lemma run_ops_no_panic cd l : enc_takes cd -> Forall (fun o => ~ asks_deflate64 o) l -> forall w,
  Forall (fun x => no_panic (snd x)) (fst (run_ops cd l w)).
Proof.
  intros T. induction 1 as [|o l ND _ IH]; intro w; [constructor|]. cbn [run_ops].
  pose proof (run_op_no_panic cd o w T ND) as N. destruct (run_op cd o w) as [r w1]. specialize (IH w1).
  destruct (run_ops cd l w1). cbn [fst] in *. now constructor.
Qed.
Lemma write_all_no_panic b w : no_panic (fst (write_all b w)).
Proof.
  pose proof (write_all_spec b w) as H. destruct (write_all b w) as [[x|e|p] w1]; destruct H as (u & H);
    [intros q E; discriminate|intros q E; discriminate|easy].
Qed.
Lemma write_all_then_no_panic {A} b (k : SM world A) w : (forall w1, no_panic (fst (k w1))) -> no_panic (fst ((write_all b ;;; k) w)).
Proof. intro H. apply bind_no_panic; [apply write_all_no_panic|auto]. Qed.
Lemma cd_entries_no_panic l : Forall (fun c => fields_count_bytes (en_extra (ce_entry c)) < 65536) l -> forall w,
  no_panic (fst (write_cd_entries l w)).
Proof.
  induction 1 as [|c l L _ IH]; intro w; cbn [write_cd_entries]; [intros p E; discriminate|].
  apply bind_no_panic; [|auto]. unfold write_cd_entry. cbv zeta.
  do 3 (apply write_all_then_no_panic; intro).
  destruct (fields_as_bytes_no_panic _ L) as [xb ->]. rewrite lift_ok.
  apply write_all_then_no_panic; intro. apply write_all_no_panic.
Qed.
Lemma close_no_panic w : cds_short w -> no_panic (fst (zw_close w)).
Proof.
  intro S. unfold zw_close. unfold bind at 1. unfold get at 1. cbv beta iota zeta.
  apply bind_no_panic; [now apply cd_entries_no_panic|]. intros a w1 _.
  unfold bind at 1. unfold get at 1. cbv beta iota.
  apply bind_no_panic.
  { destruct (_ <? _); [destruct (w_force_no w1)|]; intros p E; discriminate. }
  intros x w2 _. unfold bind at 1. unfold get at 1. cbv beta iota.
  apply bind_no_panic.
  { destruct (w_zip64 w2); [|intros p E; discriminate]. do 3 (apply write_all_then_no_panic; intro). apply write_all_no_panic. }
  intros y w3 _. do 2 (apply write_all_then_no_panic; intro).
  destruct (w_comment w2); [apply write_all_no_panic|intros p E; discriminate].
Qed.
Lemma archive_no_panic cd sched l : enc_takes cd -> Forall (fun o => ~ asks_deflate64 o) l ->
  let '(xs, r, _) := run_archive cd sched l in
  Forall (fun x => no_panic (snd x)) xs /\ no_panic r.
Proof.
  intros T ND. unfold run_archive. pose proof (run_ops_no_panic cd l T ND (zw_new sched)) as P.
  pose proof (cds_short_run_ops cd l T (zw_new sched) ltac:(constructor)) as S.
  destruct (run_ops cd l (zw_new sched)) as [xs w]. cbn [fst snd] in *.
  pose proof (close_no_panic w S) as C. destruct (zw_close w) as [r w']. auto.
Qed.

(** ** Closing and flushing the sink *)
Lemma run_ops_closes cd l sched : k_closes (w_sink (snd (run_ops cd l (zw_new sched)))) = 0.
Proof. destruct (evol_run_ops cd l (zw_new sched)) as (_ & _ & H & _). exact H. Qed.
Lemma archive_closes cd sched l : let '(_, _, w) := run_archive cd sched l in k_closes (w_sink w) = 0.
Proof.
  unfold run_archive. pose proof (run_ops_closes cd l sched) as H. destruct (run_ops cd l (zw_new sched)) as [xs w]. cbn [snd] in H.
  pose proof (grows_close w) as (_ & _ & G & _). destruct (zw_close w) as [r w']. cbn [snd] in G. congruence.
Qed.
Definition keeps_flushes {A} (m : SM world A) : Prop := forall w, k_flushes (w_sink (snd (m w))) = k_flushes (w_sink w).
Lemma kf_bind {A B} (m : SM world A) (k : A -> SM world B) : keeps_flushes m -> (forall a, keeps_flushes (k a)) -> keeps_flushes (bind m k).
Proof.
  intros Hm Hk w. unfold bind. specialize (Hm w). destruct (m w) as [[a|e|p] w1]; cbn [snd] in *; [|easy|easy].
  rewrite Hk. exact Hm.
Qed.
Lemma kf_get {A} (k : world -> SM world A) : (forall v, keeps_flushes (k v)) -> keeps_flushes (bind get k).
Proof. intros H w. apply H. Qed.
Lemma kf_write_all b : keeps_flushes (write_all b).
Proof.
  intro w. pose proof (write_all_spec b w) as H. destruct (write_all b w) as [[x|e|p] w1]; destruct H as (u & H); [| |easy].
  - destruct H as ([_ ->] & _). cbn. apply N.add_0_r.
  - destruct H as (io & p & _ & _ & [_ ->] & _). cbn. apply N.add_0_r.
Qed.
Lemma kf_cd_entries l : keeps_flushes (write_cd_entries l).
Proof.
  induction l as [|c l IH]; cbn [write_cd_entries]; [intro; reflexivity|]. apply kf_bind; [|now intro].
  unfold write_cd_entry. cbv zeta. do 3 (apply kf_bind; [apply kf_write_all|intros _]).
  apply kf_bind; [intro; reflexivity|intro xb]. apply kf_bind; [apply kf_write_all|intros _]. apply kf_write_all.
Qed.
Lemma kf_close : keeps_flushes zw_close.
Proof.
  unfold zw_close. apply kf_get. intro v. cbv zeta. apply kf_bind; [apply kf_cd_entries|intros _]. apply kf_get. intro v1.
  apply kf_bind.
  { destruct (_ <? _); [destruct (w_force_no v1)|]; intro; reflexivity. }
  intro x. apply kf_get. intro v2. apply kf_bind.
  { destruct (w_zip64 v2); [|intro; reflexivity]. do 3 (apply kf_bind; [apply kf_write_all|intros _]). apply kf_write_all. }
  intros _. do 2 (apply kf_bind; [apply kf_write_all|intros _]). destruct (w_comment v2); [apply kf_write_all|intro; reflexivity].
Qed.
Lemma sink_stays_open cd sched l :
  let '(xs, w) := run_ops cd l (zw_new sched) in
  let '(r, w') := zw_close w in
  k_closes (w_sink w) = 0 /\ k_closes (w_sink w') = 0 /\ k_flushes (w_sink w') = k_flushes (w_sink w).
Proof.
  pose proof (run_ops_closes cd l sched) as H. destruct (run_ops cd l (zw_new sched)) as [xs w]. cbn [snd] in H.
  pose proof (grows_close w) as (_ & _ & G & _). pose proof (kf_close w) as F. destruct (zw_close w) as [r w']. cbn [snd] in *.
  ands; congruence.
Qed.
Lemma poll_close_counts w : let '(p, w') := ow_poll_close w in
  w_bytes w' = w_bytes w /\ k_closes (w_sink w') = match p with WDone _ => k_closes (w_sink w) + 1 | _ => k_closes (w_sink w) end.
Proof.
  unfold ow_poll_close, sink_poll_close. destruct (k_sched (w_sink w)) as [|[|?|?] r]; (split; [reflexivity|]); cbn [w_sink set_sink k_closes]; lia.
Qed.
