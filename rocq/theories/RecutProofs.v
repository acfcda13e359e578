(** What the writer does not depend on: how often the sink was flushed, what is in it already. *)
From Verif Require Import Base BaseFacts Crc32 SpecWrite ZString ZDate Headers ExtraField Entry IO IOFacts Reader EntryReader Writer WriterFacts StreamFacts
  WriteProofs HistFacts RepeatFacts StreamOutcome SizeProofs BehindProofs InnerMut SpecRecut.

(** ** Flushes *)
Definition reflushed (n : N) (w : world) : world :=
  {| w_sink := {| k_written := k_written (w_sink w); k_flushes := n + k_flushes (w_sink w); k_closes := k_closes (w_sink w); k_sched := k_sched (w_sink w) |};
     w_offset := w_offset w; w_cds := w_cds w; w_force_no := w_force_no w; w_zip64 := w_zip64 w; w_comment := w_comment w |}.
Definition deaf {A} (m : SM world A) : Prop := forall n w, m (reflushed n w) = (fst (m w), reflushed n (snd (m w))).
Lemma deaf_ret {A} (a : A) : deaf (ret a). Proof. now intros p w. Qed.
Lemma deaf_fail {A} e : deaf (@fail _ A e). Proof. now intros p w. Qed.
Lemma deaf_lift {A} (r : res A) : deaf (lift r). Proof. now intros p w. Qed.
Lemma deaf_modify f : (forall p w, f (reflushed p w) = reflushed p (f w)) -> deaf (modify f).
Proof. intros H p w. unfold modify. now rewrite H. Qed.
Lemma deaf_bind {A B} (m : SM world A) (k : A -> SM world B) : deaf m -> (forall a, deaf (k a)) -> deaf (bind m k).
Proof.
  intros Hm Hk p w. unfold bind. rewrite Hm. destruct (m w) as [[a|e|q] w1]; cbn [fst snd]; [apply Hk|reflexivity|reflexivity].
Qed.
Lemma deaf_get {A} (k : world -> SM world A) : (forall v, deaf (k v)) -> (forall p v, k (reflushed p v) = k v) -> deaf (bind get k).
Proof. intros Hk Hp p w. unfold bind, get. rewrite Hp. apply Hk. Qed.
Lemma deaf_wait f : (forall p w, f (reflushed p w) = (fst (f w), reflushed p (snd (f w)))) -> deaf (wait f).
Proof.
  intros H p w. unfold wait.
  assert (G : forall fu w, wait_poll fu f (reflushed p w) = (fst (wait_poll fu f w), reflushed p (snd (wait_poll fu f w)))).
  { induction fu as [|fu IH]; intro v; [reflexivity|]. cbn [wait_poll]. rewrite H. destruct (f v) as [[|n|e] v1]; cbn [fst snd]; [apply IH|reflexivity|reflexivity]. }
  apply G.
Qed.
Lemma deaf_ow_write b : deaf (ow_write b).
Proof.
  apply deaf_wait. intros p w. unfold ow_poll_write, sink_poll_write. destruct w as [[kw kf kc ks] o c f z cm]. cbn.
  destruct ks as [|[|k|c0] r]; cbn; reflexivity.
Qed.
Lemma deaf_ow_flush : deaf ow_flush.
Proof.
  apply deaf_wait. intros p w. unfold ow_poll_flush, sink_poll_flush. destruct w as [[kw kf kc ks] o c f z cm]. cbn.
  destruct ks as [|[|k|c0] r]; cbn; unfold reflushed; cbn; now rewrite ?N.add_assoc.
Qed.
Lemma deaf_write_all_loop fu : forall b, deaf (write_all_loop fu b).
Proof.
  induction fu as [|fu IH]; intro b; cbn [write_all_loop]; [now intros p w|]. destruct (len b =? 0); [apply deaf_ret|].
  apply deaf_bind; [apply deaf_ow_write|intro n]. destruct (n =? 0); [apply deaf_fail|apply IH].
Qed.
Lemma deaf_write_all b : deaf (write_all b).
Proof. apply deaf_write_all_loop. Qed.
Ltac deaf_tac :=
  cbv beta;
  lazymatch goal with
  | |- deaf (bind get _) => apply deaf_get; [intro; deaf_tac|intros ? ?; reflexivity]
  | |- deaf (bind _ _) => apply deaf_bind; [deaf_tac|intro; deaf_tac]
  | |- deaf (let x := ?v in _) => cbv zeta; deaf_tac
  | |- deaf (match ?x with _ => _ end) => destruct x; deaf_tac
  | |- deaf (ret _) => apply deaf_ret
  | |- deaf (fail _) => apply deaf_fail
  | |- deaf (lift _) => apply deaf_lift
  | |- deaf (write_all _) => apply deaf_write_all
  | |- deaf (ow_write _) => apply deaf_ow_write
  | |- deaf ow_flush => apply deaf_ow_flush
  | |- deaf (modify _) => apply deaf_modify; intros ? ?; reflexivity
  | |- _ => idtac
  end.
Lemma deaf_enforce_zip64 : deaf enforce_zip64.
Proof. intros p w. unfold enforce_zip64. destruct w as [k o c f z cm]. destruct f; reflexivity. Qed.
Lemma deaf_push f c : deaf (push_and_check f c).
Proof. unfold push_and_check. deaf_tac. Qed.
Lemma deaf_whole_body e d : deaf (whole_write_body e d).
Proof.
  unfold whole_write_body, enforce_zip64_sizes, enforce_zip64_offset.
  deaf_tac; first [apply deaf_enforce_zip64 | apply deaf_push].
Qed.
Lemma deaf_whole cd e d : deaf (write_entry_whole cd e d).
Proof. unfold write_entry_whole. deaf_tac; apply deaf_whole_body. Qed.
Lemma deaf_write_lfh e : deaf (write_lfh e).
Proof. unfold write_lfh. deaf_tac. Qed.
Lemma deaf_stream_open cd pre e : deaf (stream_open cd pre e).
Proof. unfold stream_open. deaf_tac; apply deaf_write_lfh. Qed.
Lemma deaf_stream_write {cd} (sw : stream_writer cd) b : deaf (stream_write sw b).
Proof. unfold stream_write. deaf_tac. Qed.
Lemma deaf_stream_write_all_loop {cd} fu : forall b (sw : stream_writer cd), deaf (stream_write_all_loop fu sw b).
Proof.
  induction fu as [|fu IH]; intros b sw; cbn [stream_write_all_loop]; deaf_tac; [apply deaf_stream_write|apply IH].
Qed.
Lemma deaf_stream_flush {cd} (sw : stream_writer cd) : deaf (stream_flush sw).
Proof. unfold stream_flush. deaf_tac. Qed.
Lemma deaf_stream_body {cd} l : forall sw : stream_writer cd, deaf (stream_body sw l).
Proof.
  induction l as [|[b|] l IH]; intro sw; cbn [stream_body]; [deaf_tac| |].
  - apply deaf_bind; [apply deaf_stream_write_all_loop|intro; apply IH].
  - apply deaf_bind; [apply deaf_stream_flush|intro; apply IH].
Qed.
Lemma deaf_stream_close {cd} (sw : stream_writer cd) : deaf (stream_close sw).
Proof. unfold stream_close, compressed_close, shutdown_ignored_close. deaf_tac; apply deaf_push. Qed.
Lemma deaf_cd_entries l : deaf (write_cd_entries l).
Proof.
  induction l as [|c l IH]; cbn [write_cd_entries]; [deaf_tac|]. apply deaf_bind; [|now intro].
  unfold write_cd_entry. deaf_tac.
Qed.
Lemma deaf_close : deaf zw_close.
Proof.
  unfold zw_close. apply deaf_get; [intro v|intros p v; reflexivity]. cbv zeta.
  apply deaf_bind; [apply deaf_cd_entries|intros _]. deaf_tac.
Qed.
Lemma deaf_run_op cd o : deaf (run_op cd o).
Proof.
  destruct o; cbn [run_op]; try (apply deaf_modify; intros ? ?; reflexivity).
  - apply deaf_whole.
  - apply deaf_whole_body.
  - apply deaf_bind; [apply deaf_stream_open|intro sw]. apply deaf_bind; [apply deaf_stream_body|intro].
    destruct closed; [apply deaf_stream_close|apply deaf_ret].
Qed.

(** the same but for the flushes *)
Definition unflushed (w : world) : world :=
  {| w_sink := {| k_written := k_written (w_sink w); k_flushes := 0; k_closes := k_closes (w_sink w); k_sched := k_sched (w_sink w) |};
     w_offset := w_offset w; w_cds := w_cds w; w_force_no := w_force_no w; w_zip64 := w_zip64 w; w_comment := w_comment w |}.
Lemma unflush w : w = reflushed (k_flushes (w_sink w)) (unflushed w).
Proof. destruct w as [[a b c d] e f g h i]. unfold reflushed, unflushed. cbn. now rewrite N.add_0_r. Qed.
Lemma deaf_alike {A} (m : SM world A) w1 w2 : deaf m -> unflushed w1 = unflushed w2 ->
  fst (m w1) = fst (m w2) /\ unflushed (snd (m w1)) = unflushed (snd (m w2)).
Proof.
  intros D E. rewrite (unflush w1), (unflush w2), E. rewrite !D. cbn [fst snd]. split; reflexivity.
Qed.
Lemma unflushed_sched w1 w2 : unflushed w1 = unflushed w2 -> w_sched w1 = w_sched w2.
Proof. intro H. exact (f_equal (fun w => w_sched w) H). Qed.

(** ** Streams *)
Lemma body_alike {cd} (sw : stream_writer cd) b1 b2 w1 w2 : enc_takes cd -> sw_enc sw = None -> fed_bytes b1 = fed_bytes b2 ->
  w_sched w1 = [] -> unflushed w1 = unflushed w2 ->
  exists v1 v2, stream_body sw b1 w1 = (Ok (fed sw (fed_bytes b1) None), v1) /\ stream_body sw b2 w2 = (Ok (fed sw (fed_bytes b1) None), v2) /\
    unflushed v1 = unflushed v2 /\ w_sched v1 = [].
Proof.
  intros T EN FB CS E. pose proof (unflushed_sched _ _ E) as CS2. rewrite CS in CS2. symmetry in CS2.
  assert (H : forall b w, w_sched w = [] -> exists v f, stream_body sw b w = (Ok (fed sw (fed_bytes b) None), v) /\ moved w v (fed_bytes b) [] f).
  { intros b w C. pose proof (stream_body_ok b T sw w) as B. rewrite EN, feed_ops_none in B. unfold fed_ok in B.
    destruct (stream_body sw b w) as [[sw2|x|p] v]; cbn [fst snd] in B; destruct B as (u & B); [| |easy].
    - destruct B as (f & M & ->). destruct (calm_moved _ _ _ _ _ C M) as [-> _]. exists v, f. split; [reflexivity|exact M].
    - destruct B as (io & p & f & _ & _ & M & F). destruct (calm_moved _ _ _ _ _ C M) as [-> _]. now apply calm_faulty in F. }
  destruct (H b1 w1 CS) as (v1 & f1 & R1 & M1). destruct (H b2 w2 CS2) as (v2 & f2 & R2 & M2). exists v1, v2. rewrite <- FB in M2, R2.
  split; [exact R1|]. split; [exact R2|]. destruct (calm_moved _ _ _ _ _ CS M1) as [_ S1]. destruct (calm_moved _ _ _ _ _ CS2 M2) as [_ S2].
  split; [|exact S1]. destruct M1 as [_ M1]. destruct M2 as [_ M2]. rewrite S1 in M1. rewrite S2 in M2. rewrite M1, M2.
  destruct w1 as [[a1 b1' c1 d1] e1 g1 h1 i1 j1], w2 as [[a2 b2' c2 d2] e2 g2 h2 i2 j2]. unfold unflushed in *. cbn in *. injection E as -> -> _ -> -> -> -> ->. reflexivity.
Qed.
Lemma op_alike cd o1 o2 w1 w2 : enc_takes cd -> recut o1 o2 -> w_sched w1 = [] -> unflushed w1 = unflushed w2 ->
  fst (run_op cd o1 w1) = fst (run_op cd o2 w2) /\ unflushed (snd (run_op cd o1 w1)) = unflushed (snd (run_op cd o2 w2)) /\ w_sched (snd (run_op cd o1 w1)) = [].
Proof.
  intros T RC CS E.
  assert (SC : w_sched (snd (run_op cd o1 w1)) = []).
  { destruct (grows_run_op cd o1 w1) as (_ & _ & _ & (u & U)). rewrite CS in U. symmetry in U. now apply app_eq_nil in U. }
  enough (G : fst (run_op cd o1 w1) = fst (run_op cd o2 w2) /\ unflushed (snd (run_op cd o1 w1)) = unflushed (snd (run_op cd o2 w2))) by (destruct G; auto).
  destruct RC as [o|pre e b1 b2 closed RW FB]; [now apply deaf_alike; [apply deaf_run_op|]|]. clear SC.
  cbn [run_op]. unfold bind at 1 3 5 7. pose proof (deaf_alike (stream_open cd pre e) w1 w2 (deaf_stream_open cd pre e) E) as O.
  pose proof (stream_open_spec cd pre e w1) as SO. cbv zeta in SO.
  destruct (stream_open cd pre e w1) as [r1 v1], (stream_open cd pre e w2) as [r2 v2]. cbn [fst snd] in O. destruct O as [<- O].
  destruct r1 as [sw|x|p]; [|now split|now split].
  destruct (w_force_no w1 && so_big e); [now destruct SO|]. destruct (so_refused (w_force_no w1) e); [now destruct SO|].
  destruct SO as (u & M & _ & enc & NE & ESW).
  assert (EN : sw_enc sw = None).
  { subst sw. cbn [sw_enc opened]. unfold new_enc in NE. destruct pre; [now injection NE|]. destruct RW as [RW|RW]; [discriminate|]. rewrite RW in NE. now injection NE. }
  assert (C1 : w_sched v1 = []) by (assert (SW : w_sched (so_world w1) = []) by (unfold so_world; destruct (w_force_no w1); exact CS); now destruct (calm_moved _ _ _ _ _ SW M)).
  destruct (body_alike sw b1 b2 v1 v2 T EN FB C1 O) as (y1 & y2 & R1 & R2 & Y & _). unfold bind. rewrite R1, R2.
  destruct closed; [|now split]. now apply deaf_alike; [apply deaf_stream_close|].
Qed.
Lemma ops_alike cd l1 l2 : enc_takes cd -> Forall2 recut l1 l2 -> forall w1 w2, w_sched w1 = [] -> unflushed w1 = unflushed w2 ->
  map snd (fst (run_ops cd l1 w1)) = map snd (fst (run_ops cd l2 w2)) /\ unflushed (snd (run_ops cd l1 w1)) = unflushed (snd (run_ops cd l2 w2)).
Proof.
  intros T F. induction F as [|o1 o2 l1 l2 RC _ IH]; intros w1 w2 CS E; cbn [run_ops]; [now split|].
  pose proof (op_alike cd o1 o2 w1 w2 T RC CS E) as O. destruct (run_op cd o1 w1) as [r1 v1], (run_op cd o2 w2) as [r2 v2]. cbn [fst snd] in O.
  destruct O as (<- & O & C). specialize (IH v1 v2 C O). destruct (run_ops cd l1 v1) as [xs y1], (run_ops cd l2 v2) as [ys y2].
  cbn [fst snd map] in *. destruct IH as [-> IH]. now split.
Qed.
Lemma recut_alike cd s1 s2 l1 l2 : enc_takes cd -> obliging s1 -> obliging s2 -> Forall2 recut l1 l2 ->
  let '(xs1, r1, w1) := run_archive cd s1 l1 in let '(xs2, r2, w2) := run_archive cd s2 l2 in
  map snd xs1 = map snd xs2 /\ r1 = r2 /\ w_bytes w1 = w_bytes w2.
Proof.
  intros T O1 O2 F. pose proof (run_archive_calm cd s1 l1 O1) as C1. pose proof (run_archive_calm cd s2 l2 O2) as C2.
  pose proof (ops_alike cd l1 l2 T F (zw_new []) (zw_new []) eq_refl eq_refl) as A.
  unfold run_archive in *. destruct (run_ops cd l1 (zw_new s1)) as [xs1 w1], (run_ops cd l2 (zw_new s2)) as [xs2 w2],
    (run_ops cd l1 (zw_new [])) as [ys1 v1], (run_ops cd l2 (zw_new [])) as [ys2 v2]. cbn [fst snd] in A. destruct A as [A1 A2].
  pose proof (deaf_alike zw_close v1 v2 deaf_close A2) as [B1 B2].
  destruct (zw_close w1) as [r1 w1'], (zw_close w2) as [r2 w2'], (zw_close v1) as [q1 v1'], (zw_close v2) as [q2 v2'].
  cbn [fst snd] in *. destruct C1 as (-> & -> & ->), C2 as (-> & -> & ->). split; [exact A1|]. split; [exact B1|].
  exact (f_equal (fun w => w_bytes w) B2).
Qed.

(** ** Past the offset writer *)
Definition bare (w : world) : world :=
  {| w_sink := {| k_written := []; k_flushes := k_flushes (w_sink w); k_closes := k_closes (w_sink w); k_sched := k_sched (w_sink w) |};
     w_offset := w_offset w; w_cds := w_cds w; w_force_no := w_force_no w; w_zip64 := w_zip64 w; w_comment := w_comment w |}.
Lemma bare_behind w : w = behind (w_bytes w) (bare w).
Proof. destruct w as [[a b c d] e f g h i]. unfold behind, bare. cbn. now rewrite app_nil_r. Qed.
Lemma inner_behind b w : inner_write b w = behind (w_bytes w ++ b) (bare w).
Proof. destruct w as [[a b' c d] e f g h i]. unfold behind, bare, inner_write. cbn. now rewrite app_nil_r. Qed.
Lemma meddled cd sched l1 b l2 :
  let '(xs, r, w) := run_archive cd sched (l1 ++ l2) in
  let '(ys, q, v) := run_meddled cd sched l1 b l2 in
  ys = xs /\ q = r /\ w_offset v = w_offset w /\
  let front := w_bytes (snd (run_ops cd l1 (zw_new sched))) in
  exists rest, w_bytes w = front ++ rest /\ w_bytes v = front ++ b ++ rest.
Proof.
  unfold run_archive, run_meddled. rewrite run_ops_app. destruct (run_ops cd l1 (zw_new sched)) as [xs1 w1]. cbn [snd].
  rewrite inner_behind. rewrite (f_equal (run_ops cd l2) (bare_behind w1)), !blind_run_ops. destruct (run_ops cd l2 (bare w1)) as [ys w2]. cbn [fst snd].
  rewrite !blind_close. destruct (zw_close w2) as [r w3]. cbn [fst snd]. split; [reflexivity|]. split; [reflexivity|]. split; [reflexivity|].
  exists (w_bytes w3). split; [reflexivity|]. cbn. now rewrite app_assoc.
Qed.
