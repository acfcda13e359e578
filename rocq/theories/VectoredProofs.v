From Coq Require Import Lia.
From Verif Require Import Base BaseFacts IO Writer Vectored.

(** the bytes that answers to vectored writes said were taken *)
Fixpoint uncounted (xs : list (ow_call * wpoll)) : N :=
  match xs with
  | [] => 0
  | (OwVectored _, WDone n) :: r => n + uncounted r
  | _ :: r => uncounted r
  end.
Definition taken (w : world) : N := len (k_written (w_sink w)).

Lemma sink_took b k : match sink_poll_write b k with
  | (WDone n, k') => len (k_written k') = len (k_written k) + n
  | (_, k') => k_written k' = k_written k end.
Proof.
  unfold sink_poll_write. destruct (k_sched k) as [ | [ | n | c ] r ]; cbn; try reflexivity;
    rewrite len_app, len_take; lia.
Qed.
Lemma sink_flush_took k : k_written (snd (sink_poll_flush k)) = k_written k.
Proof. unfold sink_poll_flush. destruct (k_sched k) as [ | [ | n | c ] r ]; reflexivity. Qed.
Lemma sink_close_took k : k_written (snd (sink_poll_close k)) = k_written k.
Proof. unfold sink_poll_close. destruct (k_sched k) as [ | [ | n | c ] r ]; reflexivity. Qed.

Lemma offset_lags l w : let '(xs, w') := ow_polls l w in
  w_offset w' + uncounted xs + taken w = w_offset w + taken w'.
Proof.
  revert w. induction l as [ | c l IH ]; intros w; cbn [ow_polls].
  - cbn [uncounted]. lia.
  - assert (E : let '(p, w1) := ow_poll c w in
      w_offset w1 + uncounted [(c, p)] + taken w = w_offset w + taken w1).
    { destruct c as [ b | | | bs ]; cbn [ow_poll].
      - unfold ow_poll_write. pose proof (sink_took b (w_sink w)) as T.
        destruct (sink_poll_write b (w_sink w)) as [ [ | n | e ] k ]; unfold taken; cbn; try rewrite T; lia.
      - unfold ow_poll_flush. pose proof (sink_flush_took (w_sink w)) as T.
        destruct (sink_poll_flush (w_sink w)) as [ p k ]; cbn in T. unfold taken; cbn. rewrite T. lia.
      - unfold ow_poll_close. pose proof (sink_close_took (w_sink w)) as T.
        destruct (sink_poll_close (w_sink w)) as [ p k ]; cbn in T. unfold taken; cbn. rewrite T. lia.
      - unfold ow_poll_write_vectored, sink_poll_write_vectored. pose proof (sink_took (concat bs) (w_sink w)) as T.
        destruct (sink_poll_write (concat bs) (w_sink w)) as [ [ | n | e ] k ]; unfold taken; cbn; try rewrite T; lia. }
    destruct (ow_poll c w) as [ p w1 ]. specialize (IH w1). destruct (ow_polls l w1) as [ xs w2 ].
    assert (U : uncounted ((c, p) :: xs) = uncounted [(c, p)] + uncounted xs)
      by (destruct c, p; cbn [uncounted]; lia).
    rewrite U. lia.
Qed.
Lemma plain_counted l xs : (forall bs, ~ In (OwVectored bs) l) -> map fst xs = l -> uncounted xs = 0.
Proof.
  revert xs. induction l as [ | c l IH ]; intros [ | [ c' p ] xs ] V E; try discriminate; [ reflexivity | ].
  cbn in E. injection E as -> E. specialize (IH xs (fun bs i => V bs (or_intror i)) E).
  destruct c as [ b | | | bs ]; cbn; try exact IH. destruct (V bs (or_introl eq_refl)).
Qed.
Lemma ow_polls_calls l w : map fst (fst (ow_polls l w)) = l.
Proof.
  revert w. induction l as [ | c l IH ]; intros w; [ reflexivity | ]. cbn [ow_polls].
  destruct (ow_poll c w) as [ p w1 ]. specialize (IH w1). destruct (ow_polls l w1) as [ xs w2 ]. cbn in *. now rewrite IH.
Qed.
Lemma plain_offset l sched : (forall bs, ~ In (OwVectored bs) l) ->
  let w := snd (ow_polls l (zw_new sched)) in w_offset w = len (k_written (w_sink w)).
Proof.
  intros V. pose proof (offset_lags l (zw_new sched)) as O. pose proof (ow_polls_calls l (zw_new sched)) as C.
  destruct (ow_polls l (zw_new sched)) as [ xs w ]. cbn [fst snd] in *.
  rewrite (plain_counted l xs V C) in O. unfold taken in O. change (k_written (w_sink (zw_new sched))) with (@nil byte) in O.
  change (w_offset (zw_new sched)) with 0 in O. change (len []) with 0 in O. lia.
Qed.
