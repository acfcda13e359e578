(** Counting the answers of a sink: every one is paid for by a byte taken, a flush done, or an error returned. *)
From Verif Require Import Base BaseFacts Headers ExtraField Entry IO IOFacts Reader EntryReader Writer WriterFacts SpecLabour.

Lemma answered_app a b : answered (a ++ b) = answered a + answered b.
Proof. unfold answered. now rewrite filter_app, len_app. Qed.

(** [j]: answers that brought nothing; [f]: flushes at most *)
Definition spent (j f : N) (w w' : world) : Prop :=
  len (w_bytes w) <= len (w_bytes w') /\ k_flushes (w_sink w) <= k_flushes (w_sink w') <= k_flushes (w_sink w) + f /\
  exists used, k_sched (w_sink w) = used ++ k_sched (w_sink w') /\
    answered used + len (w_bytes w) + k_flushes (w_sink w) <= len (w_bytes w') + k_flushes (w_sink w') + j.
Lemma spent_refl w : spent 0 0 w w.
Proof. split; [lia|]. split; [lia|]. exists []. split; [easy|]. unfold answered, len. cbn. lia. Qed.
Lemma spent_sink w w' : w_sink w' = w_sink w -> spent 0 0 w w'.
Proof. intro E. unfold spent, w_bytes. rewrite E. split; [lia|]. split; [lia|]. exists []. split; [easy|]. unfold answered, len. cbn. lia. Qed.
Lemma spent_le j j' f f' w w' : j <= j' -> f <= f' -> spent j f w w' -> spent j' f' w w'.
Proof. intros J F (A & B & u & E & L). split; [lia|]. split; [lia|]. exists u. split; [easy|]. lia. Qed.
Lemma spent_trans i j k f g h a b c : spent i f a b -> spent j g b c -> i + j <= k -> f + g <= h -> spent k h a c.
Proof.
  intros (A1 & B1 & u & E1 & L1) (A2 & B2 & v & E2 & L2) J F. split; [lia|]. split; [lia|]. exists (u ++ v).
  rewrite <- app_assoc, <- E2. split; [easy|]. rewrite answered_app. lia.
Qed.

(** a computation whose answers are all paid for *)
Definition honest {A} (f : N) (m : SM world A) : Prop := forall w, let '(r, w') := m w in spent (from_sink r) f w w'.
Lemma honest_ret {A} (a : A) : honest 0 (ret a). Proof. intro. apply spent_refl. Qed.
Lemma honest_get : honest 0 get. Proof. intro. apply spent_refl. Qed.
Lemma honest_lift {A} (r : res A) : honest 0 (lift r).
Proof. intro. cbn. eapply spent_le; [| |apply spent_refl]; lia. Qed.
Lemma honest_fail {A} e : honest 0 (@fail _ A e).
Proof. intro. cbn. eapply spent_le; [| |apply spent_refl]; lia. Qed.
Lemma honest_modify g : (forall w, w_sink (g w) = w_sink w) -> honest 0 (modify g).
Proof. intros H w. cbn. now apply spent_sink. Qed.
Lemma honest_le {A} f g (m : SM world A) : f <= g -> honest f m -> honest g m.
Proof. intros L H w. specialize (H w). destruct (m w). eapply spent_le; [| |exact H]; lia. Qed.
Lemma honest_bind {A B} f g (m : SM world A) (k : A -> SM world B) : honest f m -> (forall a, honest g (k a)) -> honest (f + g) (bind m k).
Proof.
  intros Hm Hk w. specialize (Hm w). unfold bind. destruct (m w) as [[a|e|p] w1]; cbn [from_sink] in Hm.
  - specialize (Hk a w1). destruct (k a w1) as [r w2]. eapply spent_trans; [exact Hm|exact Hk|lia|lia].
  - eapply spent_le; [| |exact Hm]; cbn; lia.
  - eapply spent_le; [| |exact Hm]; cbn; lia.
Qed.
Lemma honest_bind0 {A B} (m : SM world A) (k : A -> SM world B) : honest 0 m -> (forall a, honest 0 (k a)) -> honest 0 (bind m k).
Proof. exact (honest_bind 0 0 m k). Qed.

Lemma answered_none : answered [] = 0. Proof. reflexivity. Qed.
Lemma answered_accept n : answered [WAccept n] = 1. Proof. reflexivity. Qed.
Lemma answered_fail c : answered [WFail c] = 1. Proof. reflexivity. Qed.
Ltac sinks := unfold w_bytes; cbn [set_sink w_sink k_written k_flushes k_sched from_sink];
  rewrite ?len_app, ?len_take, ?answered_none, ?answered_accept, ?answered_fail.
(** one awaited write is one answer *)
Lemma wait_write b : forall fu w, let '(r, w') := wait_poll fu (ow_poll_write b) w in
  spent (match r with Ok n => if n =? 0 then 1 else 0 | _ => from_sink r end) 0 w w'.
Proof.
  induction fu as [|fu IH]; intro w; [apply spent_refl|]. cbn [wait_poll]. unfold ow_poll_write at 1, sink_poll_write.
  destruct (k_sched (w_sink w)) as [|ev q] eqn:E.
  - destruct (N.eqb_spec (N.min (len b) (len b)) 0) as [Z|Z];
      (split; [sinks; lia|]; split; [sinks; lia|]; exists []; cbn [set_sink w_sink k_sched app]; split; [exact E|]; sinks; lia).
  - destruct ev as [|n|c].
    + specialize (IH (set_sink w {| k_written := k_written (w_sink w); k_flushes := k_flushes (w_sink w); k_closes := k_closes (w_sink w); k_sched := q |} (w_offset w))).
      destruct (wait_poll fu _ _) as [r w']. destruct IH as (A & B & u & Eu & L). split; [exact A|]. split; [exact B|].
      exists (WPending :: u). cbn [set_sink w_sink k_sched] in Eu. split; [rewrite E; cbn [app]; f_equal; exact Eu|]. exact L.
    + destruct (N.eqb_spec (N.min n (len b)) 0) as [Z|Z];
        (split; [sinks; lia|]; split; [sinks; lia|]; exists [WAccept n]; cbn [set_sink w_sink k_sched app]; split; [exact E|]; sinks; lia).
    + split; [sinks; lia|]. split; [sinks; lia|]. exists [WFail c]. cbn [set_sink w_sink k_sched app]. split; [exact E|]. sinks. lia.
Qed.
Lemma write_once b w : let '(r, w') := ow_write b w in spent (match r with Ok n => if n =? 0 then 1 else 0 | _ => from_sink r end) 0 w w'.
Proof. apply wait_write. Qed.
Lemma honest_flush : honest 1 ow_flush.
Proof.
  unfold ow_flush, wait. intro w. generalize (S (length (k_sched (w_sink w)))). intro fu. revert w.
  induction fu as [|fu IH]; intro w; [eapply spent_le; [| |apply spent_refl]; cbn; lia|]. cbn [wait_poll]. unfold ow_poll_flush at 1, sink_poll_flush.
  destruct (k_sched (w_sink w)) as [|ev q] eqn:E.
  - split; [sinks; lia|]. split; [sinks; lia|]. exists []. cbn [set_sink w_sink k_sched app]. split; [exact E|]. sinks. lia.
  - destruct ev as [|n|c].
    + match goal with |- context[wait_poll fu _ ?x] => specialize (IH x) end.
      destruct (wait_poll fu _ _) as [r w']. destruct IH as (A & B & u & Eu & L). cbn in A, B, L. rewrite N.add_0_r in *.
      split; [exact A|]. split; [exact B|].
      exists (WPending :: u). cbn [set_sink w_sink k_sched] in Eu. split; [rewrite E; cbn [app]; f_equal; exact Eu|]. exact L.
    + split; [sinks; lia|]. split; [sinks; lia|]. exists [WAccept n]. cbn [set_sink w_sink k_sched app]. split; [exact E|]. sinks. lia.
    + split; [sinks; lia|]. split; [sinks; lia|]. exists [WFail c]. cbn [set_sink w_sink k_sched app]. split; [exact E|]. sinks. lia.
Qed.
Lemma honest_write_all b : honest 0 (write_all b).
Proof.
  unfold write_all. generalize (S (length b)). intro fu. revert b. induction fu as [|fu IH]; intros b; [apply honest_lift|].
  cbn [write_all_loop]. destruct (len b =? 0); [apply honest_ret|]. intro w. unfold bind. pose proof (write_once b w) as W.
  destruct (ow_write b w) as [[n|e|p] w1]; [|exact W|exact W]. destruct (n =? 0).
  - exact W.
  - specialize (IH (drop n b) w1). destruct (write_all_loop fu (drop n b) w1) as [r w2]. eapply spent_trans; [exact W|exact IH|lia|lia].
Qed.

Ltac honest_tac :=
  lazymatch goal with
  | |- honest 0 (bind _ _) => apply honest_bind0; [honest_tac|intro; honest_tac]
  | |- honest 0 (let x := ?v in _) => cbv zeta; honest_tac
  | |- honest 0 (match ?x with _ => _ end) => destruct x; honest_tac
  | |- honest 0 get => apply honest_get
  | |- honest 0 (ret _) => apply honest_ret
  | |- honest 0 (fail _) => apply honest_fail
  | |- honest 0 (lift _) => apply honest_lift
  | |- honest 0 (write_all _) => apply honest_write_all
  | |- honest 0 (modify _) => apply honest_modify; reflexivity
  | |- _ => idtac
  end.
Lemma honest_enforce : honest 0 enforce_zip64.
Proof. intro w. unfold enforce_zip64. destruct (w_force_no w); now apply spent_sink. Qed.
Lemma honest_push f c : honest 0 (push_and_check f c).
Proof. unfold push_and_check. honest_tac. Qed.
Lemma honest_whole_body e d : honest 0 (whole_write_body e d).
Proof.
  unfold whole_write_body, enforce_zip64_sizes, enforce_zip64_offset. cbv zeta.
  honest_tac; first [apply honest_enforce | apply honest_push].
Qed.
Lemma honest_whole cd e d : honest 0 (write_entry_whole cd e d).
Proof. unfold write_entry_whole. honest_tac; apply honest_whole_body. Qed.
Lemma honest_lfh e : honest 0 (write_lfh e).
Proof. unfold write_lfh. honest_tac. Qed.
Lemma honest_open cd pre e : honest 0 (stream_open cd pre e).
Proof. unfold stream_open. honest_tac. apply honest_lfh. Qed.
Lemma honest_stream_all {cd} b : forall sw : stream_writer cd, honest 0 (stream_write_all sw b).
Proof.
  unfold stream_write_all. generalize (S (length b)). intro fu. revert b. induction fu as [|fu IH]; intros b sw; [apply honest_lift|].
  cbn [stream_write_all_loop]. destruct (len b =? 0); [apply honest_ret|]. unfold stream_write. destruct (sw_enc sw) as [st|].
  - destruct (enc_write cd st b) as [[n out] st']. apply honest_bind0; [honest_tac|]. intros [m sw']. destruct (m =? 0); [apply honest_fail|apply IH].
  - intro w. unfold bind, ret. pose proof (write_once b w) as W. destruct (ow_write b w) as [[n|e|p] w1]; [|exact W|exact W].
    destruct (n =? 0); [exact W|]. match goal with |- context[stream_write_all_loop fu ?s ?x w1] => specialize (IH x s w1); destruct (stream_write_all_loop fu s x w1) as [r w2] end.
    eapply spent_trans; [exact W|exact IH|lia|lia].
Qed.
Lemma honest_stream_flush {cd} (sw : stream_writer cd) : honest 1 (stream_flush sw).
Proof.
  unfold stream_flush. destruct (sw_enc sw) as [st|].
  - destruct (enc_flush cd st) as [out st']. apply (honest_bind 0 1); [apply honest_write_all|intros _].
    apply (honest_bind 1 0); [apply honest_flush|intros _; apply honest_ret].
  - apply (honest_bind 1 0); [apply honest_flush|intros _; apply honest_ret].
Qed.
Lemma honest_body {cd} l : forall sw : stream_writer cd,
  honest (len (filter (fun b => match b with SFlush => true | _ => false end) l)) (stream_body sw l).
Proof.
  induction l as [|[b|] l IH]; intro sw; cbn [stream_body filter].
  - apply honest_ret.
  - apply (honest_bind 0); [apply honest_stream_all|apply IH].
  - rewrite len_cons. apply honest_bind; [apply honest_stream_flush|apply IH].
Qed.
Lemma honest_close {cd} (sw : stream_writer cd) : honest 0 (stream_close sw).
Proof. unfold stream_close, compressed_close, shutdown_ignored_close. honest_tac; apply honest_push. Qed.
Lemma honest_op cd o : honest (asked_flushes o) (run_op cd o).
Proof.
  destruct o as [| | c | e d | e d | pre e body closed]; cbn [run_op asked_flushes]; try (apply honest_modify; reflexivity).
  - apply honest_whole.
  - apply honest_whole_body.
  - apply (honest_bind 0); [apply honest_open|intro sw]. match goal with |- honest ?f _ => rewrite <- (N.add_0_r f) end.
    apply honest_bind; [apply honest_body|]. intro sw2. destruct closed; [apply honest_close|apply honest_ret].
Qed.
Lemma honest_zw_close : honest 0 zw_close.
Proof.
  assert (C : forall l, honest 0 (write_cd_entries l)).
  { induction l as [|c l IH]; cbn [write_cd_entries]; [apply honest_ret|]. apply honest_bind0; [unfold write_cd_entry; honest_tac|intros _; exact IH]. }
  unfold zw_close. honest_tac; apply C.
Qed.
Lemma ops_spent cd l : forall w, let '(xs, w') := run_ops cd l w in spent (from_sinks xs) (all_flushes l) w w'.
Proof.
  induction l as [|o l IH]; intro w; cbn [run_ops]; [apply spent_refl|]. pose proof (honest_op cd o w) as H. destruct (run_op cd o w) as [x w1].
  specialize (IH w1). destruct (run_ops cd l w1) as [xs w2]. eapply spent_trans; [exact H|exact IH|change (from_sinks ((o, x) :: xs)) with (from_sink x + from_sinks xs); lia|change (all_flushes (o :: l)) with (asked_flushes o + all_flushes l); lia].
Qed.
Lemma session_spent cd sched l : let '(xs, r, w) := run_archive cd sched l in spent (from_sinks xs + from_sink r) (all_flushes l) (zw_new sched) w.
Proof.
  unfold run_archive. pose proof (ops_spent cd l (zw_new sched)) as O. destruct (run_ops cd l (zw_new sched)) as [xs w].
  pose proof (honest_zw_close w) as C. destruct (zw_close w) as [r w']. eapply spent_trans; [exact O|exact C|lia|lia].
Qed.
Lemma op_work cd o w : let '(r, w') := run_op cd o w in
  k_flushes (w_sink w') <= k_flushes (w_sink w) + asked_flushes o /\
  troubled w w' (len (w_bytes w') - len (w_bytes w) + (k_flushes (w_sink w') - k_flushes (w_sink w)) + from_sink r).
Proof.
  pose proof (honest_op cd o w) as H. destruct (run_op cd o w) as [r w']. destruct H as (A & B & u & E & L). split; [lia|].
  exists u. split; [exact E|lia].
Qed.
Lemma session_work cd sched l : let '(xs, r, w) := run_archive cd sched l in
  k_flushes (w_sink w) <= all_flushes l /\
  exists used, sched = used ++ k_sched (w_sink w) /\ answered used <= len (w_bytes w) + k_flushes (w_sink w) + from_sinks xs + from_sink r.
Proof.
  pose proof (session_spent cd sched l) as H. destruct (run_archive cd sched l) as [[xs r] w]. destruct H as (A & B & u & E & L).
  cbn in A, B, E, L. split; [lia|]. exists u. split; [exact E|lia].
Qed.
