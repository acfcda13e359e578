(** A call that is given up leaves everything as a call that failed there. *)
From Verif Require Import Base BaseFacts Crc32 ZString ZDate Headers ExtraField Entry IO IOFacts Reader EntryReader Writer WriterFacts SpecFormat SpecArchive SpecRead SpecWrite WriteProofs ArchiveProofs Zip64Proofs GiveUp SpecGiveUp.

Definition sched (w : world) : list wevent := k_sched (w_sink w).
Definition resched (w : world) (q : list wevent) : world :=
  set_sink w {| k_written := k_written (w_sink w); k_flushes := k_flushes (w_sink w); k_closes := k_closes (w_sink w); k_sched := q |} (w_offset w).
Lemma resched_self w : resched w (sched w) = w. Proof. now destruct w as [[]]. Qed.
Lemma resched_twice w p q : resched (resched w p) q = resched w q. Proof. reflexivity. Qed.
Lemma pends_app a b : pends (a ++ b) = (pends a + pends b)%nat.
Proof. unfold pends. now rewrite filter_app, app_length. Qed.

Definition follows {A} (m : SM world A) (d : DM A) : Prop := forall n w,
  match d n w with
  | (Finished r, n', w') => m w = (r, w') /\ exists used, sched w = used ++ sched w' /\ n = (n' + pends used)%nat /\
      (sched w' <> [] -> forall q, m (resched w (used ++ q)) = (r, resched w' q))
  | (Left, n', w') => exists used, sched w = used ++ WPending :: sched w' /\ n = pends used /\
      forall c q, m (resched w (used ++ WFail c :: q)) = (Err (UpstreamReadError (IoOther c)), resched w' q)
  end.

Lemma follows_bind {A B} (m : SM world A) (d : DM A) (f : A -> SM world B) (g : A -> DM B) :
  follows m d -> (forall a, follows (f a) (g a)) -> follows (bind m f) (dbind d g).
Proof.
  intros H K n w. unfold dbind. specialize (H n w). destruct (d n w) as [[[r|] n1] w1].
  - destruct H as (E & u & SU & NU & L). unfold bind at 1. rewrite E. destruct r as [a|e|p].
    + specialize (K a n1 w1). destruct (g a n1 w1) as [[[r2|] n2] w2].
      * destruct K as (E2 & u2 & SU2 & NU2 & L2). split; [exact E2|]. exists (u ++ u2). rewrite SU, SU2, app_assoc. split; [reflexivity|].
        split; [rewrite pends_app; lia|]. intros NE q. unfold bind. rewrite <- app_assoc, L; [now apply L2|]. rewrite SU2. destruct u2; [exact NE|discriminate].
      * destruct K as (u2 & SU2 & NU2 & L2). exists (u ++ u2). rewrite SU, SU2, app_assoc. split; [reflexivity|]. split; [rewrite pends_app; lia|].
        intros c q. unfold bind. rewrite <- app_assoc, L; [now apply L2|]. rewrite SU2. now destruct u2.
    + split; [reflexivity|]. exists u. split; [exact SU|]. split; [exact NU|]. intros NE q. unfold bind. now rewrite L.
    + split; [reflexivity|]. exists u. split; [exact SU|]. split; [exact NU|]. intros NE q. unfold bind. now rewrite L.
  - destruct H as (u & SU & NU & L). exists u. split; [exact SU|]. split; [exact NU|]. intros c q. unfold bind. now rewrite L.
Qed.
(** code that does not touch the sink *)
Definition quiet {A} (m : SM world A) : Prop := forall w, sched (snd (m w)) = sched w /\ forall q, m (resched w q) = (fst (m w), resched (snd (m w)) q).
Lemma follows_now {A} (m : SM world A) : quiet m -> follows m (now m).
Proof.
  intros Q n w. unfold now. specialize (Q w). destruct (m w) as [r w']. destruct Q as [S L]. cbn [fst snd] in *. split; [reflexivity|]. exists []. split; [now rewrite S|].
  split; [cbn; lia|]. intros _ q. apply L.
Qed.
Lemma quiet_lift {A} (r : res A) : quiet (lift r). Proof. split; reflexivity. Qed.
Lemma quiet_ret {A} (a : A) : quiet (ret a). Proof. split; reflexivity. Qed.
Lemma quiet_fail {A} e : quiet (fail e : SM world A). Proof. split; reflexivity. Qed.
Lemma quiet_modify f : (forall w, sched (f w) = sched w) -> (forall w q, f (resched w q) = resched (f w) q) -> quiet (modify f).
Proof. intros H1 H2 w. cbn. split; [apply H1|]. intro q. unfold modify. now rewrite H2. Qed.
Lemma quiet_bind {A B} (m : SM world A) (f : A -> SM world B) : quiet m -> (forall a, quiet (f a)) -> quiet (bind m f).
Proof.
  intros H K w. destruct (H w) as [S L]. unfold bind. destruct (m w) as [r w1] eqn:E. cbn [fst snd] in *. destruct r as [a|e|p].
  - destruct (K a w1) as [S2 L2]. split; [now rewrite S2|]. intro q. rewrite L. apply L2.
  - split; [exact S|]. intro q. now rewrite L.
  - split; [exact S|]. intro q. now rewrite L.
Qed.
Lemma quiet_get {A} (f : world -> SM world A) : (forall w q, f (resched w q) = f w) -> (forall w, quiet (f w)) -> quiet (bind get f).
Proof. intros H K w. destruct (K w w) as [S L]. unfold bind, get. split; [exact S|]. intro q. rewrite H. apply L. Qed.
Lemma follows_get {A} (f : world -> SM world A) (g : world -> DM A) :
  (forall w q, f (resched w q) = f w) -> (forall w, follows (f w) (g w)) -> follows (bind get f) (dbind (now get) g).
Proof.
  intros H K n w. unfold dbind, now, get. specialize (K w n w). destruct (g w n w) as [[[r|] n'] w'].
  - destruct K as (E & u & S & NU & L). split; [exact E|]. exists u. split; [exact S|]. split; [exact NU|]. intros NE q. unfold bind, get. rewrite H. now apply L.
  - destruct K as (u & S & NU & L). exists u. split; [exact S|]. split; [exact NU|]. intros c q. unfold bind, get. rewrite H. apply L.
Qed.

(** polls of the sink *)
Definition polls (f : world -> wpoll * world) : Prop := forall w,
  (exists k w', f (resched w []) = (WDone k, resched w' [])) /\
  (forall q, f (resched w (WPending :: q)) = (WPend, resched w q)) /\
  (forall c q, f (resched w (WFail c :: q)) = (WErr (IoOther c), resched w q)) /\
  (forall n, exists k w', forall q, f (resched w (WAccept n :: q)) = (WDone k, resched w' q)).
Lemma polls_write buf : polls (ow_poll_write buf).
Proof.
  intro w. split; [|split; [reflexivity|split; [reflexivity|]]].
  - eexists _, (snd (ow_poll_write buf (resched w []))). reflexivity.
  - intro n. eexists _, (snd (ow_poll_write buf (resched w [WAccept n]))). intro q. reflexivity.
Qed.
Lemma polls_flush : polls ow_poll_flush.
Proof.
  intro w. split; [|split; [|split]].
  - eexists _, (snd (ow_poll_flush (resched w []))). reflexivity.
  - intro q. unfold ow_poll_flush, sink_poll_flush, resched. cbn. now rewrite N.add_0_r.
  - intros c q. unfold ow_poll_flush, sink_poll_flush, resched. cbn. now rewrite N.add_0_r.
  - intro n. eexists _, (snd (ow_poll_flush (resched w [WAccept n]))). intro q. reflexivity.
Qed.
Lemma wait_any f : polls f -> forall l w n fu, (length l < fu)%nat ->
  match d_wait_poll fu f n (resched w l) with
  | (Finished r, n', w') => wait_poll fu f (resched w l) = (r, w') /\ exists used, l = used ++ sched w' /\ n = (n' + pends used)%nat /\
      (sched w' <> [] -> forall q fu', (length (used ++ q) < fu')%nat -> wait_poll fu' f (resched w (used ++ q)) = (r, resched w' q))
  | (Left, n', w') => exists used, l = used ++ WPending :: sched w' /\ n = pends used /\
      forall c q fu', (length (used ++ WFail c :: q) < fu')%nat -> wait_poll fu' f (resched w (used ++ WFail c :: q)) = (Err (UpstreamReadError (IoOther c)), resched w' q)
  end.
Proof.
  intro P. induction l as [|x l IH]; intros w n fu LE; (destruct fu as [|fu]; [cbn in LE; lia|]); cbn [d_wait_poll wait_poll]; destruct (P w) as (P1 & P2 & P3 & P4).
  - destruct P1 as (k & w' & ->). split; [reflexivity|]. exists []. split; [reflexivity|]. split; [cbn; lia|]. intro NE. now elim NE.
  - destruct x as [|k|c].
    + rewrite P2. destruct n as [|n].
      * exists []. split; [reflexivity|]. split; [reflexivity|]. intros c q [|fu'] L'; [cbn in L'; lia|]. cbn [wait_poll app]. now rewrite P3.
      * specialize (IH w n fu ltac:(cbn in LE; lia)). destruct (d_wait_poll fu f n (resched w l)) as [[[r|] n1] w1].
        -- destruct IH as (E & u & SU & NU & L). split; [exact E|]. exists (WPending :: u). split; [now rewrite SU at 1|]. split; [cbn; rewrite NU; fold (pends u); lia|].
           intros NE q [|fu'] L'; [cbn in L'; lia|]. cbn [wait_poll app]. rewrite P2. apply L; [exact NE|cbn in L'; lia].
        -- destruct IH as (u & SU & NU & L). exists (WPending :: u). split; [now rewrite SU at 1|]. split; [cbn; now rewrite NU|].
           intros c q [|fu'] L'; [cbn in L'; lia|]. cbn [wait_poll app]. rewrite P2. apply L. cbn in L'. lia.
    + destruct (P4 k) as (j & w' & Q). rewrite Q. split; [reflexivity|]. exists [WAccept k]. split; [reflexivity|]. split; [cbn; lia|].
      intros NE q [|fu'] L'; [cbn in L'; lia|]. cbn [wait_poll app]. now rewrite Q.
    + rewrite P3. split; [reflexivity|]. exists [WFail c]. split; [reflexivity|]. split; [cbn; lia|].
      intros NE q [|fu'] L'; [cbn in L'; lia|]. cbn [wait_poll app]. now rewrite P3.
Qed.
Lemma follows_wait f : polls f -> follows (wait f) (d_wait f).
Proof.
  intros P n w. pose proof (wait_any f P (sched w) w n (S (length (sched w))) ltac:(lia)) as H. rewrite resched_self in H. unfold wait, d_wait. fold (sched w).
  destruct (d_wait_poll _ f n w) as [[[r|] n'] w'].
  - destruct H as (E & u & SU & NU & L). split; [exact E|]. exists u. split; [exact SU|]. split; [exact NU|]. intros NE q. apply L; [exact NE|]. cbn. lia.
  - destruct H as (u & SU & NU & L). exists u. split; [exact SU|]. split; [exact NU|]. intros c q. apply L. cbn. lia.
Qed.
Lemma follows_write buf : follows (ow_write buf) (d_write buf). Proof. apply follows_wait, polls_write. Qed.
Lemma follows_flush : follows ow_flush d_flush. Proof. apply follows_wait, polls_flush. Qed.

(** ** The calls *)
Lemma follows_write_all_loop fu : forall buf, follows (write_all_loop fu buf) (d_write_all_loop fu buf).
Proof.
  induction fu as [|fu IH]; intro buf; cbn [write_all_loop d_write_all_loop]; [apply follows_now, quiet_lift|].
  destruct (len buf =? 0); [apply follows_now, quiet_ret|]. apply follows_bind; [apply follows_write|]. intro k. destruct (k =? 0); [apply follows_now, quiet_fail|apply IH].
Qed.
Lemma follows_write_all buf : follows (write_all buf) (d_write_all buf). Proof. apply follows_write_all_loop. Qed.
Lemma quiet_enforce : quiet enforce_zip64.
Proof. intro w. unfold enforce_zip64. split; [now destruct (w_force_no w)|]. intro q. change (w_force_no (resched w q)) with (w_force_no w). now destruct (w_force_no w). Qed.
Lemma quiet_sizes e : quiet (enforce_zip64_sizes e).
Proof. unfold enforce_zip64_sizes. destruct (_ || _); [apply quiet_bind; [apply quiet_enforce|intros; apply quiet_ret]|apply quiet_ret]. Qed.
Lemma quiet_offset o b : quiet (enforce_zip64_offset o b).
Proof. unfold enforce_zip64_offset. destruct (_ <=? _); [apply quiet_ret|apply quiet_bind; [apply quiet_enforce|intros; apply quiet_ret]]. Qed.
Lemma quiet_zip64 : quiet (modify (fun w => set_zip64 w true)). Proof. apply quiet_modify; reflexivity. Qed.
Lemma quiet_push fn c : quiet (push_and_check fn c).
Proof.
  unfold push_and_check. apply quiet_bind; [apply quiet_modify; reflexivity|intros _]. apply quiet_get; [reflexivity|]. intro w.
  destruct (_ <? _); [destruct fn; [apply quiet_fail|apply quiet_zip64]|apply quiet_ret].
Qed.
Ltac hush := lazymatch goal with
  | |- quiet (bind _ _) => apply quiet_bind; [|intro]
  | |- quiet (lift _) => apply quiet_lift
  | |- quiet (ret _) => apply quiet_ret
  | |- quiet (fail _) => apply quiet_fail
  | |- quiet (enforce_zip64_sizes _) => apply quiet_sizes
  | |- quiet (enforce_zip64_offset _ _) => apply quiet_offset
  | |- quiet (push_and_check _ _) => apply quiet_push
  | |- quiet (modify _) => apply quiet_modify; reflexivity
  | |- quiet (match ?x with _ => _ end) => destruct x
  | |- quiet (let _ := _ in _) => cbv zeta
  end.
Ltac follow := lazymatch goal with
  | |- follows _ (dbind (now get) _) => apply follows_get; [reflexivity|intro]
  | |- follows _ (dbind _ _) => apply follows_bind; [|intro]
  | |- follows _ (now _) => apply follows_now; repeat hush
  | |- follows _ (d_write_all _) => apply follows_write_all
  | |- follows _ (d_write _) => apply follows_write
  | |- follows _ d_flush => apply follows_flush
  | |- follows _ (match ?x with _ => _ end) => destruct x
  | |- follows _ (let _ := _ in _) => cbv zeta
  end.
Lemma follows_whole_body e d : follows (whole_write_body e d) (d_whole_write_body e d).
Proof. unfold whole_write_body, d_whole_write_body. repeat follow. Qed.

Lemma follows_whole cd e d : follows (write_entry_whole cd e d) (d_write_entry_whole cd e d).
Proof. unfold write_entry_whole, d_write_entry_whole. cbv zeta. destruct (en_compression _); repeat first [apply follows_whole_body|follow]. Qed.
Lemma follows_lfh e : follows (write_lfh e) (d_write_lfh e).
Proof. unfold write_lfh, d_write_lfh. repeat follow. Qed.
Lemma follows_open cd pre e : follows (stream_open cd pre e) (d_stream_open cd pre e).
Proof. unfold stream_open, d_stream_open. repeat first [apply follows_lfh|follow]. Qed.
Lemma follows_stream_write {cd} (sw : stream_writer cd) buf : follows (stream_write sw buf) (d_stream_write sw buf).
Proof. unfold stream_write, d_stream_write. repeat follow. Qed.
Lemma follows_stream_write_all {cd} (sw : stream_writer cd) buf : follows (stream_write_all sw buf) (d_stream_write_all sw buf).
Proof.
  unfold stream_write_all, d_stream_write_all. generalize (S (length buf)) as fu. intro fu. revert sw buf.
  induction fu as [|fu IH]; intros sw buf; cbn [stream_write_all_loop d_stream_write_all_loop]; repeat first [apply follows_stream_write|apply IH|follow].
Qed.
Lemma follows_stream_flush {cd} (sw : stream_writer cd) : follows (stream_flush sw) (d_stream_flush sw).
Proof. unfold stream_flush, d_stream_flush. repeat follow. Qed.
Lemma follows_stream_close {cd} (sw : stream_writer cd) : follows (stream_close sw) (d_stream_close sw).
Proof.
  unfold stream_close, d_stream_close. apply follows_bind; [unfold compressed_close, d_compressed_close, shutdown_ignored_close; repeat follow|intros _].
  repeat follow.
Qed.
Lemma follows_body {cd} l : forall (sw : stream_writer cd), follows (stream_body sw l) (d_stream_body sw l).
Proof. induction l as [|[b|] l IH]; intro sw; cbn [stream_body d_stream_body]; repeat first [apply follows_stream_write_all|apply follows_stream_flush|apply IH|follow]. Qed.
Lemma follows_op cd o : follows (run_op cd o) (d_run_op cd o).
Proof.
  destruct o; cbn [run_op d_run_op]; repeat first [apply follows_whole|apply follows_whole_body|apply follows_open|apply follows_body|apply follows_stream_close|follow].
Qed.
Lemma follows_cd_entries l : follows (write_cd_entries l) (d_write_cd_entries l).
Proof. induction l as [|c l IH]; cbn [write_cd_entries d_write_cd_entries]; unfold write_cd_entry, d_write_cd_entry; repeat first [apply IH|follow]. Qed.
Lemma follows_close : follows zw_close d_close.
Proof. unfold zw_close, d_close. repeat first [apply follows_cd_entries|follow]. Qed.

(** ** Sessions *)
Lemma soured_refl l : soured l l. Proof. induction l; constructor; auto. Qed.
Lemma soured_app a a' b b' : soured a a' -> soured b b' -> soured (a ++ b) (a' ++ b').
Proof. apply Forall2_app. Qed.
Lemma soured_step m d n w x n' w1 s1 : follows m d -> d n w = (x, n', w1) -> soured (sched w1) s1 ->
  exists s, soured (sched w) s /\ m (resched w s) = (told_of x, resched w1 s1).
Proof.
  intros F E S. specialize (F n w). rewrite E in F. destruct x as [r|]; cbn [told_of].
  - destruct F as (M & u & SU & _ & L). destruct (sched w1) as [|y l] eqn:EW.
    + inversion S; subst. exists (sched w). split; [apply soured_refl|]. rewrite resched_self, M. f_equal. rewrite <- EW. symmetry. apply resched_self.
    + exists (u ++ s1). rewrite SU. split; [apply soured_app; [apply soured_refl|exact S]|]. apply L. discriminate.
  - destruct F as (u & SU & _ & L). exists (u ++ WFail 0 :: s1). rewrite SU. split; [|apply L]. apply soured_app; [apply soured_refl|]. constructor; auto.
Qed.
Lemma soured_ops cd l : forall w xs w1 s1, d_run_ops cd l w = (xs, w1) -> soured (sched w1) s1 ->
  exists s, soured (sched w) s /\ run_ops cd (map fst l) (resched w s) = (told_ops xs, resched w1 s1).
Proof.
  induction l as [|[o n] l IH]; intros w xs w1 s1 E S; cbn [d_run_ops] in E.
  - injection E as <- <-. exists s1. split; [exact S|reflexivity].
  - destruct (d_run_op cd o n w) as [[x n'] w0] eqn:E1. destruct (d_run_ops cd l w0) as [ys w2] eqn:E2. injection E as <- <-.
    destruct (IH _ _ _ _ E2 S) as (s0 & S0 & R0). destruct (soured_step _ _ _ _ _ _ _ _ (follows_op cd o) E1 S0) as (s & SS & R).
    exists s. split; [exact SS|]. cbn [map fst run_ops told_ops snd]. rewrite R, R0. reflexivity.
Qed.
Lemma soured_archive cd sched0 l n : let '(xs, r, w) := d_run_archive cd sched0 l n in
  exists sched1, soured sched0 sched1 /\ run_archive cd sched1 (map fst l) = (told_ops xs, told_of r, w).
Proof.
  unfold d_run_archive, run_archive. destruct (d_run_ops cd l (zw_new sched0)) as [xs w0] eqn:E1. destruct (d_close n w0) as [[r n'] w] eqn:E2.
  destruct (soured_step _ _ _ _ _ _ _ _ follows_close E2 (soured_refl (sched w))) as (s1 & S1 & R1). destruct (soured_ops cd _ _ _ _ _ E1 S1) as (s & S & R).
  exists s. split; [exact S|]. change (resched (zw_new sched0) s) with (zw_new s) in R. rewrite R, R1, resched_self. reflexivity.
Qed.
(** who has patience for every poll put off never leaves *)
Lemma patient_step {A} m (d : DM A) n w : follows m d -> (pends (sched w) <= n)%nat -> exists n' w', d n w = (Finished (fst (m w)), n', w') /\ m w = (fst (m w), w') /\ (pends (sched w') <= pends (sched w))%nat.
Proof.
  intros F L. specialize (F n w). destruct (d n w) as [[[r|] n'] w'].
  - destruct F as (M & u & SU & _). exists n', w'. rewrite M. split; [reflexivity|]. split; [reflexivity|]. rewrite SU, pends_app. lia.
  - destruct F as (u & SU & NU & _). rewrite SU, pends_app in L. cbn in L. lia.
Qed.
Lemma patient_ops cd l : forall w k, (pends (sched w) <= k)%nat -> Forall (fun x => (k <= snd x)%nat) l ->
  let '(xs, w') := run_ops cd (map fst l) w in
  d_run_ops cd l w = (map (fun x => (fst x, Finished (snd x))) xs, w') /\ (pends (sched w') <= k)%nat.
Proof.
  induction l as [|[o n] l IH]; intros w k P F; cbn [map fst run_ops d_run_ops]; [now split|].
  inversion F as [|? ? F1 F2]; subst. cbn [snd] in F1. destruct (patient_step _ _ n w (follows_op cd o) ltac:(lia)) as (n' & w1 & E & M & L).
  rewrite E. destruct (run_op cd o w) as [r w1']. cbn [fst] in *. injection M as ->. specialize (IH w1 k ltac:(lia) F2).
  destruct (run_ops cd (map fst l) w1) as [xs w2]. destruct IH as [-> IH]. now split.
Qed.
Lemma patient_archive cd sched0 l n : Forall (fun x => (pends sched0 <= snd x)%nat) l -> (pends sched0 <= n)%nat ->
  let '(xs, r, w) := run_archive cd sched0 (map fst l) in d_run_archive cd sched0 l n = (map (fun x => (fst x, Finished (snd x))) xs, Finished r, w).
Proof.
  intros F L. unfold d_run_archive, run_archive. pose proof (patient_ops cd l (zw_new sched0) (pends sched0) (le_n _) F) as H.
  destruct (run_ops cd (map fst l) (zw_new sched0)) as [xs w0]. destruct H as [-> H]. destruct (patient_step _ _ n w0 follows_close ltac:(lia)) as (n' & w1 & -> & M & _).
  rewrite M. cbn [fst]. destruct (zw_close w0) as [r w]. cbn [fst] in *. congruence.
Qed.

(** ** What is kept *)
Lemma kept_told xs : forall no64, succeeded no64 (told_ops xs) = kept no64 xs.
Proof. induction xs as [|[o x] xs IH]; intro no64; [reflexivity|]. cbn [told_ops map fst snd succeeded kept]. fold (told_ops xs). rewrite IH. now destruct x as [[]|]. Qed.
Lemma others_kept cd cfg sched0 s l n : codec_ok cd -> Forall (fun x => op_good (fst x)) l ->
  let '(xs, r, w) := d_run_archive cd sched0 l n in
  let d := w_bytes w in
  r = Finished (Ok tt) -> unambiguous cd cfg (map fst l) (told_ops xs) (w_zip64 w) d -> s_data s = d -> nofail (s_sched s) ->
  exists f, fst (file cfg s) = Ok f /\ mem_new cfg d = Ok {| m_data := d; m_file := f |} /\
    comment_reads_as (last_comment (map fst l)) (f_comment f) /\
    Forall2 (fun x st => exists it, leaves cd (fst x) (snd x) it /\ as_written d it st /\ texts_kept it st) (kept false xs) (f_entries f) /\
    (forall i no64 o data, nth_error (kept false xs) (N.to_nat i) = Some (no64, o) -> holds cd o data ->
       (forall it, leaves cd no64 o it -> straight it) ->
       read_entry cd f i s = Ok data /\ mem_read_entry cd {| m_data := d; m_file := f |} i = Ok data).
Proof.
  intros K G. pose proof (soured_archive cd sched0 l n) as H. destruct (d_run_archive cd sched0 l n) as [[xs r] w]. destruct H as (s1 & _ & R). cbv zeta. intros -> U SD NF.
  assert (G' : Forall op_good (map fst l)) by (rewrite Forall_map; exact G). pose proof (read_back cd cfg s1 s (map fst l) K G') as B. rewrite R in B. cbv zeta in B.
  destruct (B eq_refl U SD NF) as (f & F & M & _ & C & E & RD). rewrite kept_told in E, RD. exists f. auto.
Qed.
Lemma until_ops cd l m : forall w xs w', run_ops cd l w = (xs, w') -> forall a x, xs = a ++ [x] -> Forall (fun y => stops (snd y) = false) a -> stops (snd x) = true ->
  run_until stops (map (run_op cd) l ++ m) w = (map snd xs, w').
Proof.
  induction l as [|o l IH]; intros w xs w' E a x -> A X; cbn [run_ops map app run_until] in *; [apply (f_equal fst) in E; destruct a; discriminate E|].
  destruct (run_op cd o w) as [r w1]. destruct (run_ops cd l w1) as [ys w2] eqn:E2. destruct a as [|y a]; cbn [app] in E; injection E as E1 E3 E4; subst.
  - cbn [snd] in X. rewrite X. destruct l as [|o' l]; cbn [run_ops] in E2; [injection E2 as <-; reflexivity|]. destruct (run_op cd o' w1) as [r' w3]. destruct (run_ops cd l w3) as [zs w4]. discriminate E2.
  - inversion A as [|? ? A1 A2]; subst. cbn [snd] in A1. rewrite A1. rewrite (IH _ _ _ E2 a x eq_refl A2 X). reflexivity.
Qed.
Lemma until_close cd l : forall w xs w', run_ops cd l w = (xs, w') -> Forall (fun y => stops (snd y) = false) xs ->
  run_until stops (calls cd l) w = (map snd xs ++ [fst (zw_close w')], snd (zw_close w')).
Proof.
  unfold calls. induction l as [|o l IH]; intros w xs w' E A; cbn [run_ops map app run_until] in *.
  - injection E as <- <-. destruct (zw_close w) as [r w1]. cbn. now destruct (stops r).
  - destruct (run_op cd o w) as [r w1]. destruct (run_ops cd l w1) as [ys w2] eqn:E2. injection E as <- <-. inversion A as [|? ? A1 A2]; subst. cbn [snd] in A1.
    rewrite A1, (IH _ _ _ E2 A2). reflexivity.
Qed.
Lemma well_goes x : well x = true -> stops (told_of x) = false.
Proof. now destruct x as [[]|]. Qed.
Lemma left_prefix cd sched0 l rest xs o w : d_run_ops cd l (zw_new sched0) = (xs ++ [(o, Left)], w) -> Forall (fun x => well (snd x) = true) xs ->
  prefix_of (w_bytes w) (w_bytes (snd (run_until stops (calls cd (map fst l ++ rest)) (zw_new [])))).
Proof.
  intros E W. destruct (soured_ops cd _ _ _ _ (sched w) E (soured_refl _)) as (s & _ & R). change (resched (zw_new sched0) s) with (zw_new s) in R. rewrite resched_self in R.
  pose proof (fault_prefix stops cd s (map fst l ++ rest) ltac:(reflexivity)) as P. unfold calls in P at 1. rewrite map_app, <- app_assoc in P.
  rewrite (until_ops cd _ _ _ _ _ R (told_ops xs) (o, told_of Left)) in P.
  - destruct (run_until stops (calls cd (map fst l ++ rest)) (zw_new [])) as [rs0 w0]. apply P.
  - unfold told_ops. now rewrite map_app.
  - unfold told_ops. rewrite Forall_map. eapply Forall_impl; [|exact W]. intros x. apply well_goes.
  - reflexivity.
Qed.
Lemma close_prefix cd sched0 l n : let '(xs, r, w) := d_run_archive cd sched0 l n in
  Forall (fun x => well (snd x) = true) xs -> prefix_of (w_bytes w) (w_bytes (snd (run_until stops (calls cd (map fst l)) (zw_new [])))).
Proof.
  pose proof (soured_archive cd sched0 l n) as H. destruct (d_run_archive cd sched0 l n) as [[xs r] w]. destruct H as (s & _ & R). intro W.
  pose proof (fault_prefix stops cd s (map fst l) ltac:(reflexivity)) as P. unfold run_archive in R. destruct (run_ops cd (map fst l) (zw_new s)) as [ys w1] eqn:E.
  assert (EY : ys = told_ops xs) by (destruct (zw_close w1); congruence).
  rewrite (until_close cd _ _ _ _ E) in P.
  - destruct (zw_close w1) as [r1 w2]. cbn [fst snd] in P. injection R as _ _ ->. destruct (run_until stops _ (zw_new [])) as [rs0 w0]. apply P.
  - subst ys. unfold told_ops. rewrite Forall_map. eapply Forall_impl; [|exact W]. intros x. apply well_goes.
Qed.
