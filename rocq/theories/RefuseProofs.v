(** A refused call leaves the writer as it was, or has made the archive a ZIP64 one. *)
From Verif Require Import Base BaseFacts Crc32 ZString ZDate Headers HeadersFacts ExtraField Entry IO IOFacts
  Reader EntryReader Writer WriterFacts WholeFacts StreamFacts SpecFormat SpecArchive SpecRead SpecWrite SpecSession SpecRefuse HistFacts CloseFacts.

Lemma set64_same w : w_zip64 w = true -> set_zip64 w true = w.
Proof. destruct w; cbn. now intros ->. Qed.
Lemma head_some h e : exists b l, concat (head_writes h e) = b :: l.
Proof. unfold head_writes. cbn [concat]. change (to_le 4 LFH_SIGNATURE) with [x50; x4b; x03; x04]. cbn [app]. eauto. Qed.
Lemma grown w w1 w2 b l r : evol w1 w2 -> w_bytes w1 = w_bytes w ++ b :: l -> refused r w w2 -> False.
Proof.
  intros ((x & B & _) & _) E (_ & _ & R). rewrite R, E, <- app_assoc in B. rewrite <- (app_nil_r (w_bytes w)) in B at 1. apply app_inv_head in B. discriminate B.
Qed.
Definition marked (r : res unit) (w w2 : world) : Prop := w2 = set_zip64 w true /\ w_force_no w = false /\ too_large r.
Lemma whole_refusal e d w : let '(r, w2) := whole_write_body e d w in refused r w w2 -> w2 = w \/ marked r w w2.
Proof.
  rewrite whole_body_eq. cbv zeta. destruct ((wh_big e d || over (w_offset w)) && w_force_no w) eqn:FN; [now left|].
  assert (WB : w_bytes (wh_world e d w) = w_bytes w) by (unfold wh_world; now destruct (_ || _)).
  destruct (wh_refused e d (w_offset w)) as [x|] eqn:RE.
  { intros _. unfold wh_world. destruct (wh_big e d || over (w_offset w)); [right|now left]. cbn [andb] in FN. split; [reflexivity|]. split; [exact FN|].
    unfold wh_refused in RE. cbv zeta in RE. unfold too_large. repeat match type of RE with (if ?b then _ else _) = _ => destruct b end; try discriminate; injection RE as <-; auto. }
  unfold bind. pose proof (puts_ok (head_writes (wh_lfh e d (w_offset w)) (wh_e3 e d (w_offset w)) ++ [d]) (wh_world e d w)) as P. unfold put_ok in P.
  destruct (puts _ (wh_world e d w)) as [[x|x|p] w1]; cbn [fst snd] in P; destruct P as (us & P); [| |easy].
  - destruct P as [M _]. pose proof (moved_bytes _ _ _ _ _ M) as B. rewrite WB, concat_app in B.
    destruct (head_some (wh_lfh e d (w_offset w)) (wh_e3 e d (w_offset w))) as (b & l & H). rewrite H in B. cbn [app] in B.
    match goal with |- let '(r, w2) := ?m w1 in _ => assert (G : evol w1 (snd (m w1))) end.
    { destruct (_ <? _); [apply grows_push_and_check|apply grows_fail]. }
    match goal with |- let '(r, w2) := ?m w1 in _ => destruct (m w1) as [r w2] end. cbn [snd] in G. intro RF. now apply (grown w w1 w2 b (l ++ concat [d]) r) in RF.
  - destruct P as (io & p & -> & _). intros (_ & N & _). exfalso. now apply (N io).
Qed.
Lemma stream_refusal cd pre e body closed w : let '(r, w2) := run_op cd (OpStream pre e body closed) w in refused r w w2 -> w2 = w \/ marked r w w2.
Proof.
  cbn [run_op]. unfold bind at 1. pose proof (stream_open_spec cd pre e w) as O. cbv zeta in O.
  destruct (stream_open cd pre e w) as [r w1].
  assert (WB : w_bytes (so_world w) = w_bytes w) by (unfold so_world; now destruct (w_force_no w)).
  destruct (w_force_no w && so_big e); [destruct O as [-> ->]; now left|].
  destruct (so_refused (w_force_no w) e) as [x|] eqn:RE.
  { destruct O as [-> ->]. intros _. unfold so_world. destruct (w_force_no w) eqn:FN; [now left|right]. split; [reflexivity|]. split; [exact FN|].
    unfold so_refused in RE. cbv zeta in RE. unfold too_large. repeat match type of RE with (if ?b then _ else _) = _ => destruct b end; try discriminate; injection RE as <-; auto. }
  destruct O as (us & O). destruct (head_some (so_lfh (w_force_no w) e) (so_e3 (w_force_no w) e)) as (b & l & H).
  change (concat (head_writes ?h ?e)) with (head_bytes h e) in H. rewrite H in O.
  destruct r as [sw|x|p].
  - destruct O as (M & _). pose proof (moved_bytes _ _ _ _ _ M) as B. rewrite WB in B.
    match goal with |- let '(r, w2) := ?m w1 in _ => assert (G : evol w1 (snd (m w1))) end.
    { apply grows_bind; [apply grows_stream_body|intro sw2]. destruct closed; [apply grows_stream_close|apply grows_ret]. }
    destruct (bind _ _ w1) as [r w2]. cbn [snd] in G. intro RF. now apply (grown w w1 w2 b l r) in RF.
  - destruct O as (io & p & -> & _). intros (_ & N & _). exfalso. now apply (N io).
  - destruct O as (_ & _ & _ & M). pose proof (moved_bytes _ _ _ _ _ M) as B. rewrite WB in B. intro RF. now apply (grown w w1 w1 b l (Panic p) (evol_refl w1)) in RF.
Qed.
Lemma refusal cd o w : let '(r, w2) := run_op cd o w in refused r w w2 -> w2 = w \/ marked r w w2.
Proof.
  destruct o as [| | c | e d | e d | pre e body closed]; try (cbn; intros (R & _); now elim R).
  - cbn [run_op]. unfold write_entry_whole. cbv zeta. destruct (en_compression _); [apply whole_refusal|..];
      (unfold bind, lift; destruct (compress _ _ _ _) as [z|x|p]; [apply whole_refusal|now left|now left]).
  - apply whole_refusal.
  - apply stream_refusal.
Qed.

Lemma run_ops_app cd a b : forall w, run_ops cd (a ++ b) w = let '(xs, w1) := run_ops cd a w in let '(ys, w2) := run_ops cd b w1 in (xs ++ ys, w2).
Proof.
  induction a as [|o a IH]; intro w; cbn [app run_ops].
  - now destruct (run_ops cd b w).
  - destruct (run_op cd o w) as [r w1]. rewrite IH. destruct (run_ops cd a w1) as [xs w2]. destruct (run_ops cd b w2) as [ys w3]. reflexivity.
Qed.
Lemma left_out cd sched l1 o l2 :
  let '(xs1, w1) := run_ops cd l1 (zw_new sched) in
  let '(r, w2) := run_op cd o w1 in
  refused r w1 w2 ->
  exists xs2 rc w,
    run_archive cd sched (l1 ++ o :: l2) = (xs1 ++ (o, r) :: xs2, rc, w) /\
    run_archive cd sched (l1 ++ left_by w1 w2 ++ l2) = (xs1 ++ map (fun o => (o, Ok tt)) (left_by w1 w2) ++ xs2, rc, w).
Proof.
  unfold run_archive. rewrite !run_ops_app. destruct (run_ops cd l1 (zw_new sched)) as [xs1 w1] eqn:E1. pose proof (refusal cd o w1) as R.
  destruct (run_op cd o w1) as [r w2] eqn:E2. intro RF. specialize (R RF). rewrite !run_ops_app, E1. cbn [run_ops]. rewrite E2.
  destruct (run_ops cd l2 w2) as [xs2 w3] eqn:E3. destruct (zw_close w3) as [rc w4] eqn:E4. exists xs2, rc, w4. split; [reflexivity|].
  assert (W : run_ops cd (left_by w1 w2) w1 = (map (fun o => (o, Ok tt)) (left_by w1 w2), w2)).
  { unfold left_by. destruct R as [->|(-> & _)]; [now rewrite Bool.eqb_reflx|]. cbn [set_zip64 w_zip64]. destruct (w_zip64 w1) eqn:Z; cbn [Bool.eqb]; [|reflexivity].
    cbn [map run_ops]. now rewrite set64_same. }
  rewrite run_ops_app, W, E3, E4. reflexivity.
Qed.
(** no mark, no trace *)
Lemma left_nothing cd o w : let '(r, w2) := run_op cd o w in refused r w w2 -> w_zip64 w = true \/ w_force_no w = true \/ ~ too_large r -> w2 = w.
Proof.
  pose proof (refusal cd o w) as R. destruct (run_op cd o w) as [r w2]. intros RF C. destruct (R RF) as [E|(-> & F & T)]; [exact E|].
  destruct C as [C|[C|C]]; [now apply set64_same|congruence|contradiction].
Qed.
Lemma vanishes_refused r w w2 : evol w w2 -> vanishes r w w2 = true -> refused r w w2 /\ w_zip64 w2 = w_zip64 w.
Proof.
  intros ((b & B & _) & _) V. unfold vanishes in V.
  assert (X : (len (w_bytes w2) =? len (w_bytes w)) && Bool.eqb (w_zip64 w2) (w_zip64 w) = true /\ r <> Ok tt /\ says_no_upstream r).
  { destruct r as [u|x|p]; [discriminate| |]; [destruct x; try discriminate V|]; (split; [exact V|split; [discriminate|intros io; discriminate]]). }
  destruct X as (X & R & N). apply andb_true_iff in X as [X Z]. apply Bool.eqb_prop in Z. apply N.eqb_eq in X. split; [|exact Z]. split; [exact R|]. split; [exact N|].
  rewrite B, len_app in X. assert (L : len b = 0) by lia. apply len_0 in L. now rewrite B, L, app_nil_r.
Qed.
Lemma unrefused_ops cd l : forall w, let '(xs, w') := run_ops cd l w in
  exists ys, run_ops cd (unrefused cd l w) w = (ys, w') /\ fewer xs ys.
Proof.
  induction l as [|o l IH]; intro w; cbn [run_ops unrefused].
  { exists []. split; [reflexivity|constructor]. }
  pose proof (grows_run_op cd o w) as G. pose proof (refusal cd o w) as R. destruct (run_op cd o w) as [r w1] eqn:E. cbn [snd] in G.
  specialize (IH w1). destruct (run_ops cd l w1) as [xs w2]. destruct IH as (ys & E2 & K).
  destruct (vanishes r w w1) eqn:V; cbn [app].
  - destruct (vanishes_refused r w w1 G V) as [RF Z]. assert (w1 = w) as ->.
    { destruct (R RF) as [H|(H & _)]; [exact H|]. rewrite H. apply set64_same. rewrite <- Z, H. reflexivity. }
    exists ys. split; [exact E2|]. apply fewer_gone; [exact (proj1 RF)|exact (proj1 (proj2 RF))|exact K].
  - exists ((o, r) :: ys). cbn [run_ops]. rewrite E, E2. split; [reflexivity|]. now apply fewer_kept.
Qed.
Lemma unrefused_archive cd sched l : let '(xs, rc, w) := run_archive cd sched l in
  exists ys, run_archive cd sched (unrefused cd l (zw_new sched)) = (ys, rc, w) /\ fewer xs ys.
Proof.
  unfold run_archive. pose proof (unrefused_ops cd l (zw_new sched)) as U. destruct (run_ops cd l (zw_new sched)) as [xs w]. destruct U as (ys & E & K).
  destruct (zw_close w) as [rc w4] eqn:C. exists ys. rewrite E, C. now split.
Qed.
