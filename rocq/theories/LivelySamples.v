(** The encoder of [EncoderSamples] does not stop without reason. *)
From Verif Require Import Base BaseFacts SpecWrite Headers Entry IO IOFacts EntryReader Writer WriterFacts StreamPolls SpecPolls PollProofs EncoderPolls SpecEncoder EncoderSamples SpecLively.

Definition reason (p : wpoll) (used : list wevent) : Prop := match p with WPend => In WPending used | WErr _ => ~ obliging used | WDone _ => True end.
Lemma reason_app p u v : reason p v -> reason p (u ++ v).
Proof. destruct p; cbn [reason]; [intro; apply in_or_app; now right|auto|]. intros N O. apply N. now apply Forall_app in O. Qed.
Lemma poll_reason b w : let '(p, w') := ow_poll_write b w in exists u, k_sched (w_sink w) = u ++ k_sched (w_sink w') /\ reason p u /\ (b <> [] -> p = WDone 0 -> ~ obliging u).
Proof.
  destruct w as [[kw kf kc ks] o c f z cm]. unfold ow_poll_write, sink_poll_write, set_sink. cbn. destruct ks as [|[|k|c0] r].
  - exists []. split; [reflexivity|]. split; [exact I|]. intros N E. injection E as E. destruct b; [now elim N|]. rewrite N.min_id in E. discriminate E.
  - exists [WPending]. split; [reflexivity|]. split; [now left|discriminate].
  - exists [WAccept k]. split; [reflexivity|]. split; [exact I|]. intros N E. injection E as E. destruct b as [|x b]; [now elim N|]. intro O. inversion O as [|? ? H]; subst.
    rewrite len_cons in E. lia.
  - exists [WFail c0]. split; [reflexivity|]. split; [|discriminate]. intro O. inversion O; subst; assumption.
Qed.
Lemma flush_reason w : let '(p, w') := ow_poll_flush w in exists u, k_sched (w_sink w) = u ++ k_sched (w_sink w') /\ reason p u.
Proof.
  destruct w as [[kw kf kc ks] o c f z cm]. unfold ow_poll_flush, sink_poll_flush, set_sink. cbn. destruct ks as [|[|k|c0] r].
  - now exists [].
  - exists [WPending]. split; [reflexivity|now left].
  - now exists [WAccept k].
  - exists [WFail c0]. split; [reflexivity|]. intro O. inversion O; subst; assumption.
Qed.
Lemma drain_reason fu : forall kept w, let '(p, kept', w') := drain fu kept w in exists u, k_sched (w_sink w) = u ++ k_sched (w_sink w') /\ reason p u.
Proof.
  induction fu as [|fu IH]; intros kept w; cbn [drain]; [now exists []|]. destruct kept as [|x k]; [now exists []|].
  pose proof (poll_reason (x :: k) w) as P. destruct (ow_poll_write (x :: k) w) as [[|n|e] w1]; destruct P as (u & U & R & Z).
  - now exists u.
  - destruct (N.eqb_spec n 0) as [->|N].
    + exists u. split; [exact U|]. now apply Z.
    + specialize (IH (drop n (x :: k)) w1). destruct (drain fu (drop n (x :: k)) w1) as [[p kept'] w2]. destruct IH as (v & V & R2).
      exists (u ++ v). split; [now rewrite U, V, app_assoc|now apply reason_app].
  - now exists u.
Qed.

Theorem buffered_lively cd : enc_takes cd -> engine_lively cd (buffered cd) (fun g => g).
Proof.
  intros T c [[st kept] fin] w. cbn [eg_poll buffered buffered_poll]. destruct c as [b| |].
  - destruct fin; [split; [reflexivity|exists []; split; [reflexivity|right; now split]]|]. destruct b as [|x b0]; [split; [reflexivity|exists []; now split]|].
    pose proof (T st (x :: b0) ltac:(discriminate)) as TK. remember (x :: b0) as b eqn:EB.
    unfold drained at 1. pose proof (drain_reason (Datatypes.S (length kept)) kept w) as D. destruct (drain (Datatypes.S (length kept)) kept w) as [[[|n|e] k1] w1]; destruct D as (u & U & R).
    + split; [reflexivity|]. now exists u.
    + destruct (enc_write cd st b) as [[m out] st']. unfold drained. pose proof (drain_reason (Datatypes.S (length (k1 ++ out))) (k1 ++ out) w1) as D.
      destruct (drain (Datatypes.S (length (k1 ++ out))) (k1 ++ out) w1) as [[[|n2|e] k2] w2]; destruct D as (v & V & R2); (split; [reflexivity|]; exists (u ++ v); split; [now rewrite U, V, app_assoc|]).
      * intros _. apply TK.
      * intros _. apply TK.
      * left. exact (reason_app (WErr e) u v R2).
    + split; [reflexivity|]. exists u. split; [exact U|now left].
  - destruct fin; [split; [reflexivity|exists []; split; [reflexivity|right; now split]]|]. destruct (enc_flush cd st) as [out st'].
    unfold drained. pose proof (drain_reason (Datatypes.S (length (kept ++ out))) (kept ++ out) w) as D.
    destruct (drain (Datatypes.S (length (kept ++ out))) (kept ++ out) w) as [[[|n|e] k1] w1]; destruct D as (u & U & R).
    + split; [reflexivity|]. now exists u.
    + pose proof (flush_reason w1) as F. destruct (ow_poll_flush w1) as [p w2]. destruct F as (v & V & R2). split; [reflexivity|]. exists (u ++ v). split; [now rewrite U, V, app_assoc|].
      apply (reason_app p u) in R2. destruct p; [exact R2|exact I|now left].
    + split; [reflexivity|]. exists u. split; [exact U|now left].
  - unfold drained. set (k := kept ++ _). pose proof (drain_reason (Datatypes.S (length k)) k w) as D. destruct (drain (Datatypes.S (length k)) k w) as [[p k1] w1].
    destruct D as (u & U & R). split; [intro N; now elim N|]. exists u. split; [exact U|]. destruct p; [exact R|exact I|now left].
Qed.
