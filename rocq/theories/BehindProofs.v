(** Writing behind content that the sink already has. *)
From Verif Require Import Base BaseFacts Crc32 ZString ZDate Headers ExtraField Entry IO Reader EntryReader Writer.

Definition behind (p : bytes) (w : world) : world :=
  {| w_sink := {| k_written := p ++ k_written (w_sink w); k_flushes := k_flushes (w_sink w); k_closes := k_closes (w_sink w); k_sched := k_sched (w_sink w) |};
     w_offset := w_offset w; w_cds := w_cds w; w_force_no := w_force_no w; w_zip64 := w_zip64 w; w_comment := w_comment w |}.

(** [m] does the same whatever is in the sink *)
Definition blind {A} (m : SM world A) : Prop := forall p w, m (behind p w) = (fst (m w), behind p (snd (m w))).

Lemma blind_ret {A} (a : A) : blind (ret a). Proof. now intros p w. Qed.
Lemma blind_fail {A} e : blind (@fail _ A e). Proof. now intros p w. Qed.
Lemma blind_lift {A} (r : res A) : blind (lift r). Proof. now intros p w. Qed.
Lemma blind_modify f : (forall p w, f (behind p w) = behind p (f w)) -> blind (modify f).
Proof. intros H p w. unfold modify. now rewrite H. Qed.
Lemma blind_bind {A B} (m : SM world A) (k : A -> SM world B) : blind m -> (forall a, blind (k a)) -> blind (bind m k).
Proof.
  intros Hm Hk p w. unfold bind. rewrite Hm. destruct (m w) as [[a|e|q] w1]; cbn [fst snd]; [apply Hk|reflexivity|reflexivity].
Qed.
Lemma blind_get {A} (k : world -> SM world A) : (forall v, blind (k v)) -> (forall p v, k (behind p v) = k v) -> blind (bind get k).
Proof. intros Hk Hp p w. unfold bind, get. rewrite Hp. apply Hk. Qed.

Lemma blind_wait f : (forall p w, f (behind p w) = (fst (f w), behind p (snd (f w)))) -> blind (wait f).
Proof.
  intros H p w. unfold wait.
  assert (G : forall fu w, wait_poll fu f (behind p w) = (fst (wait_poll fu f w), behind p (snd (wait_poll fu f w)))).
  { induction fu as [|fu IH]; intro v; [reflexivity|]. cbn [wait_poll]. rewrite H. destruct (f v) as [[|n|e] v1]; cbn [fst snd]; [apply IH|reflexivity|reflexivity]. }
  apply G.
Qed.
Lemma blind_ow_write b : blind (ow_write b).
Proof.
  apply blind_wait. intros p w. unfold ow_poll_write, sink_poll_write. destruct w as [[kw kf kc ks] o c f z cm]. cbn.
  destruct ks as [|[|k|c0] r]; cbn; unfold behind; cbn; now rewrite ?app_assoc.
Qed.
Lemma blind_ow_flush : blind ow_flush.
Proof.
  apply blind_wait. intros p w. unfold ow_poll_flush, sink_poll_flush. destruct w as [[kw kf kc ks] o c f z cm]. cbn.
  destruct ks as [|[|k|c0] r]; cbn; reflexivity.
Qed.
Lemma blind_write_all_loop fu : forall b, blind (write_all_loop fu b).
Proof.
  induction fu as [|fu IH]; intro b; cbn [write_all_loop]; [now intros p w|]. destruct (len b =? 0); [apply blind_ret|].
  apply blind_bind; [apply blind_ow_write|intro n]. destruct (n =? 0); [apply blind_fail|apply IH].
Qed.
Lemma blind_write_all b : blind (write_all b).
Proof. apply blind_write_all_loop. Qed.

Ltac blind_tac :=
  cbv beta;
  lazymatch goal with
  | |- blind (bind get _) => apply blind_get; [intro; blind_tac|intros ? ?; reflexivity]
  | |- blind (bind _ _) => apply blind_bind; [blind_tac|intro; blind_tac]
  | |- blind (let x := ?v in _) => cbv zeta; blind_tac
  | |- blind (match ?x with _ => _ end) => destruct x; blind_tac
  | |- blind (ret _) => apply blind_ret
  | |- blind (fail _) => apply blind_fail
  | |- blind (lift _) => apply blind_lift
  | |- blind (write_all _) => apply blind_write_all
  | |- blind (ow_write _) => apply blind_ow_write
  | |- blind ow_flush => apply blind_ow_flush
  | |- blind (modify _) => apply blind_modify; intros ? ?; reflexivity
  | |- _ => idtac
  end.

Lemma blind_enforce_zip64 : blind enforce_zip64.
Proof. intros p w. unfold enforce_zip64. destruct w as [k o c f z cm]. destruct f; reflexivity. Qed.
Lemma blind_push f c : blind (push_and_check f c).
Proof. unfold push_and_check. blind_tac. Qed.
Lemma blind_whole_body e d : blind (whole_write_body e d).
Proof.
  unfold whole_write_body, enforce_zip64_sizes, enforce_zip64_offset.
  blind_tac; first [apply blind_enforce_zip64 | apply blind_push].
Qed.
Lemma blind_whole cd e d : blind (write_entry_whole cd e d).
Proof. unfold write_entry_whole. blind_tac; apply blind_whole_body. Qed.
Lemma blind_write_lfh e : blind (write_lfh e).
Proof. unfold write_lfh. blind_tac. Qed.
Lemma blind_stream_open cd pre e : blind (stream_open cd pre e).
Proof. unfold stream_open. blind_tac; apply blind_write_lfh. Qed.
Lemma blind_stream_write {cd} (sw : stream_writer cd) b : blind (stream_write sw b).
Proof. unfold stream_write. blind_tac. Qed.
Lemma blind_stream_write_all_loop {cd} fu : forall b (sw : stream_writer cd), blind (stream_write_all_loop fu sw b).
Proof.
  induction fu as [|fu IH]; intros b sw; cbn [stream_write_all_loop]; blind_tac; [apply blind_stream_write|apply IH].
Qed.
Lemma blind_stream_flush {cd} (sw : stream_writer cd) : blind (stream_flush sw).
Proof. unfold stream_flush. blind_tac. Qed.
Lemma blind_stream_body {cd} l : forall sw : stream_writer cd, blind (stream_body sw l).
Proof.
  induction l as [|[b|] l IH]; intro sw; cbn [stream_body]; [blind_tac| |].
  - apply blind_bind; [apply blind_stream_write_all_loop|intro; apply IH].
  - apply blind_bind; [apply blind_stream_flush|intro; apply IH].
Qed.
Lemma blind_stream_close {cd} (sw : stream_writer cd) : blind (stream_close sw).
Proof. unfold stream_close, compressed_close, shutdown_ignored_close. blind_tac; apply blind_push. Qed.
Lemma blind_cd_entries l : blind (write_cd_entries l).
Proof.
  induction l as [|c l IH]; cbn [write_cd_entries]; [blind_tac|]. apply blind_bind; [|now intro].
  unfold write_cd_entry. blind_tac.
Qed.
Lemma blind_close : blind zw_close.
Proof.
  unfold zw_close. apply blind_get; [intro v|intros p v; reflexivity]. cbv zeta.
  apply blind_bind; [apply blind_cd_entries|intros _]. blind_tac.
Qed.
Lemma blind_run_op cd o : blind (run_op cd o).
Proof.
  destruct o; cbn [run_op]; try (apply blind_modify; intros ? ?; reflexivity).
  - apply blind_whole.
  - apply blind_whole_body.
  - apply blind_bind; [apply blind_stream_open|intro sw]. apply blind_bind; [apply blind_stream_body|intro].
    destruct closed; [apply blind_stream_close|apply blind_ret].
Qed.
Lemma blind_run_ops cd l : forall p w, run_ops cd l (behind p w) = (fst (run_ops cd l w), behind p (snd (run_ops cd l w))).
Proof.
  induction l as [|o l IH]; intros p w; [reflexivity|]. cbn [run_ops]. rewrite blind_run_op. destruct (run_op cd o w) as [r w1]. cbn [fst snd].
  rewrite IH. destruct (run_ops cd l w1) as [xs w2]. reflexivity.
Qed.

(** the whole session *)
Definition run_archive_behind (cd : codec) (p : bytes) (sched : list wevent) (l : list wop) : list (wop * res unit) * res unit * world :=
  let '(xs, w) := run_ops cd l (behind p (zw_new sched)) in
  let '(r, w') := zw_close w in
  (xs, r, w').
Lemma session_behind cd p sched l :
  let '(xs, r, w) := run_archive cd sched l in run_archive_behind cd p sched l = (xs, r, behind p w).
Proof.
  unfold run_archive, run_archive_behind. rewrite blind_run_ops. destruct (run_ops cd l (zw_new sched)) as [xs w]. cbn [fst snd].
  rewrite blind_close. destruct (zw_close w) as [r w']. reflexivity.
Qed.
Lemma written_behind cd p sched l :
  let '(xs, r, w) := run_archive cd sched l in
  let '(xs', r', w') := run_archive_behind cd p sched l in
  xs' = xs /\ r' = r /\ w_bytes w' = p ++ w_bytes w /\ w_offset w' = w_offset w.
Proof.
  pose proof (session_behind cd p sched l) as H. destruct (run_archive cd sched l) as [[xs r] w]. rewrite H. repeat split; reflexivity.
Qed.
