(** The offset writer and [write_all] over a sink with any schedule; what no operation changes. *)
From Verif Require Import Base BaseFacts Crc32 CrcFacts ZString ZDate Headers ExtraField Entry IO Reader EntryReader Writer.
Arguments N.add : simpl never.
Arguments N.sub : simpl never.
Arguments N.min : simpl never.

Definition w_sched (w : world) : list wevent := k_sched (w_sink w).

(** a fault in a schedule, and the io error it is reported as *)
Definition fault (ev : wevent) (e : io_error) : Prop :=
  match ev with WFail c => e = IoOther c | WAccept n => n = 0 /\ e = WriteZero | WPending => False end.
(** no fault: every write accepts something *)
Definition steady (l : list wevent) : Prop := Forall (fun ev => forall e, ~ fault ev e) l.
Definition faulty (l : list wevent) (e : io_error) : Prop := exists ev, In ev l /\ fault ev e.
Lemma steady_app a b : steady (a ++ b) <-> steady a /\ steady b.
Proof. apply Forall_app. Qed.
Lemma steady_nil : steady []. Proof. constructor. Qed.
Lemma faulty_app_l a b e : faulty a e -> faulty (a ++ b) e.
Proof. intros (ev & I & F). exists ev. split; [apply in_or_app; now left|easy]. Qed.
Lemma faulty_app_r a b e : faulty b e -> faulty (a ++ b) e.
Proof. intros (ev & I & F). exists ev. split; [apply in_or_app; now right|easy]. Qed.
Lemma steady_faulty l e : steady l -> ~ faulty l e.
Proof. intros S (ev & I & F). unfold steady in S. rewrite Forall_forall in S. now apply (S ev I e). Qed.
Local Hint Resolve steady_nil : core.

(** [w'] is [w] after [b] was written, [u] of the schedule having been used up and [f] flushes made *)
Definition moved (w w' : world) (b : bytes) (u : list wevent) (f : N) : Prop :=
  w_sched w = u ++ w_sched w' /\
  w' = {| w_sink := {| k_written := k_written (w_sink w) ++ b; k_flushes := k_flushes (w_sink w) + f;
                       k_closes := k_closes (w_sink w); k_sched := w_sched w' |};
          w_offset := w_offset w + len b; w_cds := w_cds w; w_force_no := w_force_no w; w_zip64 := w_zip64 w;
          w_comment := w_comment w |}.

Lemma moved_refl w : moved w w [] [] 0.
Proof.
  split; [easy|]. destruct w as [[kw kf kc ks] o c f z cm]. cbn. rewrite app_nil_r, !N.add_0_r. reflexivity.
Qed.
Lemma moved_trans w w1 w2 b1 b2 u1 u2 f1 f2 : moved w w1 b1 u1 f1 -> moved w1 w2 b2 u2 f2 ->
  moved w w2 (b1 ++ b2) (u1 ++ u2) (f1 + f2).
Proof.
  intros [S1 E1] [S2 E2]. split; [now rewrite S1, S2, app_assoc|].
  rewrite E2. rewrite E1. cbn. unfold w_sched. cbn. rewrite app_assoc, len_app, !N.add_assoc. reflexivity.
Qed.
Lemma moved_bytes w w' b u f : moved w w' b u f -> w_bytes w' = w_bytes w ++ b.
Proof. intros [_ E]. rewrite E. reflexivity. Qed.
Lemma moved_offset w w' b u f : moved w w' b u f -> w_offset w' = w_offset w + len b.
Proof. intros [_ E]. rewrite E. reflexivity. Qed.
Lemma moved_cds w w' b u f : moved w w' b u f -> w_cds w' = w_cds w.
Proof. intros [_ E]. rewrite E. reflexivity. Qed.
Lemma moved_force w w' b u f : moved w w' b u f -> w_force_no w' = w_force_no w.
Proof. intros [_ E]. rewrite E. reflexivity. Qed.
Lemma moved_zip64 w w' b u f : moved w w' b u f -> w_zip64 w' = w_zip64 w.
Proof. intros [_ E]. rewrite E. reflexivity. Qed.
Lemma moved_comment w w' b u f : moved w w' b u f -> w_comment w' = w_comment w.
Proof. intros [_ E]. rewrite E. reflexivity. Qed.
Lemma moved_closes w w' b u f : moved w w' b u f -> k_closes (w_sink w') = k_closes (w_sink w).
Proof. intros [_ E]. rewrite E. reflexivity. Qed.

(** one awaited write *)
Lemma wait_write_spec buf : forall fu w, (length (w_sched w) < fu)%nat ->
  let '(r, w') := wait_poll fu (ow_poll_write buf) w in
  exists u, match r with
    | Ok n => n <= len buf /\ moved w w' (take n buf) u 0 /\ (0 < len buf -> (steady u /\ 0 < n \/ n = 0 /\ faulty u WriteZero))
              /\ (u = [] -> n = len buf)
    | Err e => exists io, e = UpstreamReadError io /\ moved w w' [] u 0 /\ faulty u io
    | Panic _ => False
    end.
Proof.
  induction fu as [|fu IH]; intros w Hf; [lia|].
  cbn [wait_poll]. unfold ow_poll_write, sink_poll_write. unfold w_sched in Hf.
  destruct w as [[kw kf kc ks] o c fn z cm]. cbn [w_sink k_sched] in *.
  destruct ks as [|ev ks]; cbn [k_written k_flushes k_closes].
  - exists []. unfold set_sink; cbn. rewrite N.min_id. split; [lia|]. split; [|split; [intros; left; split; [easy|lia]|easy]].
    unfold moved, w_sched. cbn. split; [easy|]. rewrite take_all by lia. now rewrite N.add_0_r.
  - destruct ev as [|n|code]; cbn [w_sink].
    + set (w1 := set_sink _ _ _).
      assert (M1 : moved {| w_sink := {| k_written := kw; k_flushes := kf; k_closes := kc; k_sched := WPending :: ks |};
                            w_offset := o; w_cds := c; w_force_no := fn; w_zip64 := z; w_comment := cm |} w1 [] [WPending] 0).
      { unfold moved, w1, set_sink, w_sched. cbn. split; [easy|]. now rewrite app_nil_r, !N.add_0_r. }
      assert (L : (length (w_sched w1) < fu)%nat) by (unfold w1, w_sched; cbn in *; lia).
      specialize (IH w1 L). destruct (wait_poll fu _ w1) as [r w'].
      destruct IH as (u & IH). exists (WPending :: u). destruct r as [n|e|p]; [| |easy].
      * destruct IH as (Hn & M & F & U). split; [easy|]. split.
        { change (WPending :: u) with ([WPending] ++ u). rewrite <- (app_nil_l (take n buf)). rewrite <- (N.add_0_l 0).
          eapply moved_trans; eassumption. }
        split; [|easy].
        intros Hb. destruct (F Hb) as [[S P]|[Z (ev & I & Fa)]]; [left; split; [|easy]|right; split; [easy|]].
        { constructor; [now cbn|easy]. }
        { exists ev. split; [now right|easy]. }
      * destruct IH as (io & -> & M & (ev & I & Fa)). exists io. split; [easy|]. split.
        { change (WPending :: u) with ([WPending] ++ u). rewrite <- (app_nil_l []). rewrite <- (N.add_0_l 0).
          eapply moved_trans; eassumption. }
        exists ev. split; [now right|easy].
    + exists [WAccept n]. split; [lia|]. split.
      { unfold moved, set_sink, w_sched. cbn. split; [easy|]. rewrite len_take, N.add_0_r.
        replace (N.min (N.min n (len buf)) (len buf)) with (N.min n (len buf)) by lia. reflexivity. }
      split; [|easy].
      intros Hb. destruct (N.eq_dec n 0) as [->|Hn].
      * right. split; [lia|]. exists (WAccept 0). split; [now left|easy].
      * left. split; [|lia]. constructor; [|easy]. intros e [E _]. easy.
    + exists [WFail code]. exists (IoOther code). split; [easy|]. split.
      { unfold moved, set_sink, w_sched. cbn. split; [easy|]. now rewrite app_nil_r, !N.add_0_r. }
      exists (WFail code). split; [now left|easy].
Qed.

Lemma ow_write_spec buf w :
  let '(r, w') := ow_write buf w in
  exists u, match r with
    | Ok n => n <= len buf /\ moved w w' (take n buf) u 0 /\ (0 < len buf -> (steady u /\ 0 < n \/ n = 0 /\ faulty u WriteZero))
              /\ (u = [] -> n = len buf)
    | Err e => exists io, e = UpstreamReadError io /\ moved w w' [] u 0 /\ faulty u io
    | Panic _ => False
    end.
Proof. unfold ow_write, wait. apply wait_write_spec. unfold w_sched. lia. Qed.

Lemma wait_flush_spec : forall fu w, (length (w_sched w) < fu)%nat ->
  let '(r, w') := wait_poll fu ow_poll_flush w in
  exists u, match r with
    | Ok n => n = 0 /\ moved w w' [] u 1 /\ (steady u \/ faulty u WriteZero) /\ Forall (fun ev => match ev with WFail _ => False | _ => True end) u
    | Err e => exists io, e = UpstreamReadError io /\ moved w w' [] u 0 /\ faulty u io
    | Panic _ => False
    end.
Proof.
  induction fu as [|fu IH]; intros w Hf; [lia|].
  cbn [wait_poll]. unfold ow_poll_flush, sink_poll_flush. unfold w_sched in Hf.
  destruct w as [[kw kf kc ks] o c fn z cm]. cbn [w_sink k_sched] in *.
  destruct ks as [|ev ks]; cbn [k_written k_flushes k_closes].
  - exists []. split; [easy|]. split; [|now split; [left|constructor]].
    unfold moved, set_sink, w_sched. cbn. split; [easy|]. now rewrite app_nil_r, !N.add_0_r.
  - destruct ev as [|n|code]; cbn [w_sink].
    + set (w1 := set_sink _ _ _).
      assert (M1 : moved {| w_sink := {| k_written := kw; k_flushes := kf; k_closes := kc; k_sched := WPending :: ks |};
                            w_offset := o; w_cds := c; w_force_no := fn; w_zip64 := z; w_comment := cm |} w1 [] [WPending] 0).
      { unfold moved, w1, set_sink, w_sched. cbn. split; [easy|]. now rewrite app_nil_r, !N.add_0_r. }
      assert (L : (length (w_sched w1) < fu)%nat) by (unfold w1, w_sched; cbn in *; lia).
      specialize (IH w1 L). destruct (wait_poll fu _ w1) as [r w'].
      destruct IH as (u & IH). exists (WPending :: u). destruct r as [n|e|p]; [| |easy].
      * destruct IH as (-> & M & F & NF). split; [easy|]. split.
        { change (WPending :: u) with ([WPending] ++ u). rewrite <- (app_nil_l []). rewrite <- (N.add_0_l 1).
          eapply moved_trans; eassumption. }
        split; [|now constructor]. destruct F as [S|(ev & I & Fa)]; [left|right].
        { constructor; [now cbn|easy]. }
        { exists ev. split; [now right|easy]. }
      * destruct IH as (io & -> & M & (ev & I & Fa)). exists io. split; [easy|]. split.
        { change (WPending :: u) with ([WPending] ++ u). rewrite <- (app_nil_l []). rewrite <- (N.add_0_l 0).
          eapply moved_trans; eassumption. }
        exists ev. split; [now right|easy].
    + exists [WAccept n]. split; [easy|]. split.
      { unfold moved, set_sink, w_sched. cbn. split; [easy|]. now rewrite app_nil_r, N.add_0_r. }
      split; [|now repeat constructor]. destruct (N.eq_dec n 0) as [->|Hn].
      * right. exists (WAccept 0). split; [now left|easy].
      * left. constructor; [|easy]. intros e [E _]. easy.
    + exists [WFail code]. exists (IoOther code). split; [easy|]. split.
      { unfold moved, set_sink, w_sched. cbn. split; [easy|]. now rewrite app_nil_r, !N.add_0_r. }
      exists (WFail code). split; [now left|easy].
Qed.

Lemma ow_flush_spec w :
  let '(r, w') := ow_flush w in
  exists u, match r with
    | Ok n => n = 0 /\ moved w w' [] u 1 /\ (steady u \/ faulty u WriteZero) /\ Forall (fun ev => match ev with WFail _ => False | _ => True end) u
    | Err e => exists io, e = UpstreamReadError io /\ moved w w' [] u 0 /\ faulty u io
    | Panic _ => False
    end.
Proof. unfold ow_flush, wait. apply wait_flush_spec. unfold w_sched. lia. Qed.

(** [write_all]: everything is written, or the sink failed and a prefix was written *)
Lemma write_all_loop_spec : forall fu buf w, (length buf < fu)%nat ->
  let '(r, w') := write_all_loop fu buf w in
  exists u, match r with
    | Ok _ => moved w w' buf u 0 /\ steady u
    | Err e => exists io p, e = UpstreamReadError io /\ prefix p buf /\ moved w w' p u 0 /\ faulty u io
    | Panic _ => False
    end.
Proof.
  induction fu as [|fu IH]; intros buf w Hf; [lia|].
  cbn [write_all_loop]. destruct (N.eqb_spec (len buf) 0) as [E|E].
  - apply len_0 in E. subst buf. unfold ret. exists []. split; [apply moved_refl|easy].
  - unfold bind. pose proof (ow_write_spec buf w) as S. destruct (ow_write buf w) as [r w1].
    destruct S as (u & S). destruct r as [n|e|p]; [| |easy].
    + destruct S as (Hn & M & F & _). destruct F as [[St Pn]|[-> Fa]]; [lia| |].
      * rewrite (proj2 (N.eqb_neq n 0)) by lia.
        assert (L : (length (drop n buf) < fu)%nat).
        { pose proof (len_drop n buf). unfold len in *. lia. }
        specialize (IH (drop n buf) w1 L). destruct (write_all_loop fu (drop n buf) w1) as [r w2].
        destruct IH as (u2 & IH). exists (u ++ u2). destruct r as [x|e|p]; [| |easy].
        { destruct IH as (M2 & S2). split; [|now apply steady_app].
          rewrite <- (take_drop n buf). rewrite <- (N.add_0_l 0). eapply moved_trans; eassumption. }
        { destruct IH as (io & p & -> & P & M2 & Fa). exists io, (take n buf ++ p). split; [easy|]. split.
          - rewrite <- (take_drop n buf) at 2. now apply prefix_app_l.
          - split; [|now apply faulty_app_r]. rewrite <- (N.add_0_l 0). eapply moved_trans; eassumption. }
      * rewrite N.eqb_refl. unfold fail. exists u, WriteZero, []. split; [easy|]. split; [now exists buf|].
        split; [|easy]. now rewrite take_0 in M.
    + destruct S as (io & -> & M & Fa). exists u, io, []. split; [easy|]. split; [now exists buf|]. split; easy.
Qed.

Lemma write_all_spec buf w :
  let '(r, w') := write_all buf w in
  exists u, match r with
    | Ok _ => moved w w' buf u 0 /\ steady u
    | Err e => exists io p, e = UpstreamReadError io /\ prefix p buf /\ moved w w' p u 0 /\ faulty u io
    | Panic _ => False
    end.
Proof. unfold write_all. apply write_all_loop_spec. lia. Qed.

(** a world whose sink takes everything at once *)
Definition calmw (w : world) : world :=
  set_sink w {| k_written := k_written (w_sink w); k_flushes := k_flushes (w_sink w);
                k_closes := k_closes (w_sink w); k_sched := [] |} (w_offset w).
Lemma calmw_calmw w : calmw (calmw w) = calmw w. Proof. reflexivity. Qed.
Lemma calmw_id w : w_sched w = [] -> calmw w = w.
Proof. destruct w as [[kw kf kc ks] o c f z cm]. unfold w_sched, calmw, set_sink. cbn. now intros ->. Qed.
Lemma calmw_sched w : w_sched (calmw w) = []. Proof. reflexivity. Qed.

(** the world after [b] was written to a sink that takes everything *)
Definition wrote (w : world) (b : bytes) : world :=
  set_sink w {| k_written := k_written (w_sink w) ++ b; k_flushes := k_flushes (w_sink w);
                k_closes := k_closes (w_sink w); k_sched := [] |} (w_offset w + len b).

Lemma moved_calm w w' b u f : moved w w' b u f ->
  calmw w' = set_sink w {| k_written := k_written (w_sink w) ++ b; k_flushes := k_flushes (w_sink w) + f;
                k_closes := k_closes (w_sink w); k_sched := [] |} (w_offset w + len b).
Proof. intros [_ E]. rewrite E. reflexivity. Qed.

Lemma write_all_calm buf w : w_sched w = [] -> write_all buf w = (Ok tt, wrote w buf).
Proof.
  intros Sc. pose proof (write_all_spec buf w) as S. destruct (write_all buf w) as [r w'].
  destruct S as (u & S). destruct r as [[]|e|p]; [| |easy].
  - destruct S as (M & _). f_equal. assert (E : w_sched w' = []).
    { destruct M as [M _]. rewrite Sc in M. symmetry in M. apply app_eq_nil in M. tauto. }
    rewrite <- (calmw_id w' E). rewrite (moved_calm _ _ _ _ _ M). unfold wrote. now rewrite N.add_0_r.
  - destruct S as (io & p & -> & _ & [M _] & F). rewrite Sc in M. symmetry in M. apply app_eq_nil in M.
    destruct M as [-> _]. now destruct F as (ev & [] & _).
Qed.

(** ** Runs on any schedule against the run on a sink that takes everything *)
(** no failing write or flush in it *)
Definition nofault (l : list wevent) : Prop := Forall (fun ev => match ev with WFail _ => False | _ => True end) l.
Lemma nofault_nil : nofault []. Proof. constructor. Qed.
Lemma nofault_app a b : nofault a -> nofault b -> nofault (a ++ b).
Proof. unfold nofault. rewrite Forall_app. auto. Qed.
Lemma steady_nofault l : steady l -> nofault l.
Proof. unfold steady, nofault. apply Forall_impl. intros [| |c] H; [easy|easy|]. now elim (H (IoOther c)). Qed.
Local Hint Resolve nofault_nil : core.
Definition sim_at {A} (w : world) (m : SM world A) : Prop :=
  let '(r, w') := m w in
  let '(r0, w0) := m (calmw w) in
  w_sched w0 = [] /\ prefix (w_bytes w) (w_bytes w0) /\
  exists u, w_sched w = u ++ w_sched w' /\
  ((r = r0 /\ calmw w' = w0 /\ nofault u) \/
   (exists io, r = Err (UpstreamReadError io) /\ faulty u io /\ prefix (w_bytes w') (w_bytes w0))).
Definition wsim {A} (m : SM world A) : Prop := forall w, sim_at w m.

Lemma wsim_ret {A} (a : A) : wsim (ret a).
Proof. intro w. unfold sim_at, ret. split; [easy|]. split; [apply prefix_refl|]. exists []. split; [easy|]. now left. Qed.
Lemma wsim_fail {A} e : wsim (@fail _ A e).
Proof. intro w. unfold sim_at, fail. split; [easy|]. split; [apply prefix_refl|]. exists []. split; [easy|]. now left. Qed.
Lemma wsim_lift {A} (r : res A) : wsim (lift r).
Proof. intro w. unfold sim_at, lift. split; [easy|]. split; [apply prefix_refl|]. exists []. split; [easy|]. now left. Qed.
Lemma wsim_modify f : (forall w, w_sched (f w) = w_sched w) -> (forall w, calmw (f w) = f (calmw w)) ->
  (forall w, w_bytes (f w) = w_bytes w) -> wsim (modify f).
Proof.
  intros H1 H2 H3 w. unfold sim_at, modify. split; [now rewrite H1|]. split; [rewrite H3; apply prefix_refl|].
  exists []. split; [now rewrite H1|]. left. split; [easy|]. split; [apply H2|easy].
Qed.
Lemma wsim_bind {A B} (m : SM world A) (k : A -> SM world B) : wsim m -> (forall a, wsim (k a)) -> wsim (bind m k).
Proof.
  intros Hm Hk w. unfold sim_at, bind. specialize (Hm w). unfold sim_at in Hm.
  destruct (m w) as [r w1] eqn:E1. destruct (m (calmw w)) as [r0 w10] eqn:E0.
  destruct Hm as (C & P & u & Hu & [(-> & Cs & NF)|(io & -> & F & P')]).
  - destruct r0 as [a|e|p].
    + specialize (Hk a w1). unfold sim_at in Hk. rewrite Cs in Hk.
      destruct (k a w1) as [r2 w2]. destruct (k a w10) as [r20 w20].
      destruct Hk as (C' & P1 & u' & Hu' & H).
      assert (Pw : prefix (w_bytes w) (w_bytes w20)).
      { eapply prefix_trans; [exact P|]. subst w10. exact P1. }
      split; [easy|]. split; [easy|]. exists (u ++ u'). rewrite <- app_assoc, <- Hu'. split; [easy|].
      destruct H as [(N1 & N2 & NF')|(io & -> & F & P2)]; [left; auto using nofault_app|right].
      exists io. split; [easy|]. split; [now apply faulty_app_r|easy].
    + split; [easy|]. split; [easy|]. exists u. split; [easy|]. now left.
    + split; [easy|]. split; [easy|]. exists u. split; [easy|]. now left.
  - destruct r0 as [a|e|p].
    + specialize (Hk a w10). unfold sim_at in Hk. rewrite (calmw_id w10 C) in Hk.
      destruct (k a w10) as [r20 w20]. destruct Hk as (C' & P1 & _).
      split; [easy|]. split; [now apply prefix_trans with (w_bytes w10)|]. exists u. split; [easy|]. right.
      exists io. split; [easy|]. split; [easy|]. now apply prefix_trans with (w_bytes w10).
    + split; [easy|]. split; [easy|]. exists u. split; [easy|]. right. exists io. auto.
    + split; [easy|]. split; [easy|]. exists u. split; [easy|]. right. exists io. auto.
Qed.
(** the world may be consulted, but not its schedule *)
Lemma wsim_get {A} (k : world -> SM world A) :
  (forall v, wsim (k v)) -> (forall v, k v = k (calmw v)) -> wsim (bind get k).
Proof.
  intros Hk Hc w. unfold sim_at, bind, get. specialize (Hk w w). unfold sim_at in Hk.
  rewrite (Hc w) in *. exact Hk.
Qed.

Lemma wsim_write_all b : wsim (write_all b).
Proof.
  intro w. unfold sim_at. rewrite (write_all_calm b (calmw w)) by reflexivity.
  pose proof (write_all_spec b w) as S. destruct (write_all b w) as [r w'].
  destruct S as (u & S). split; [easy|]. split; [apply prefix_app|].
  exists u. destruct r as [[]|e|p]; [| |easy].
  - destruct S as (M & St). split; [apply M|]. left. split; [easy|]. split; [|now apply steady_nofault].
    rewrite (moved_calm _ _ _ _ _ M). now rewrite N.add_0_r.
  - destruct S as (io & p & -> & P & M & F). split; [apply M|]. right. exists io. split; [easy|]. split; [easy|].
    rewrite (moved_bytes _ _ _ _ _ M). unfold w_bytes at 2. cbn. now apply prefix_app_l.
Qed.

Lemma wsim_ow_flush : wsim ow_flush.
Proof.
  intro w. unfold sim_at. pose proof (ow_flush_spec w) as S. pose proof (ow_flush_spec (calmw w)) as S0.
  destruct (ow_flush w) as [r w'], (ow_flush (calmw w)) as [r0 w0].
  destruct S as (u & S), S0 as (u0 & S0).
  assert (U : forall b f, moved (calmw w) w0 b u0 f -> u0 = [] /\ w_sched w0 = []).
  { intros b f [M _]. rewrite calmw_sched in M. symmetry in M. now apply app_eq_nil in M. }
  destruct r0 as [n0|e|p]; [| |easy].
  2:{ destruct S0 as (io & _ & M & F). destruct (U _ _ M) as [-> _]. now destruct F as (ev & [] & _). }
  destruct S0 as (-> & M0 & _). destruct (U _ _ M0) as [-> Sc]. split; [easy|].
  pose proof (moved_bytes _ _ _ _ _ M0) as B0. rewrite app_nil_r in B0. change (w_bytes (calmw w)) with (w_bytes w) in B0.
  split; [rewrite B0; apply prefix_refl|]. exists u. destruct r as [n|e|p]; [| |easy].
  - destruct S as (-> & M & _ & NF). split; [apply M|]. left. split; [easy|]. split; [|exact NF].
    rewrite (moved_calm _ _ _ _ _ M). rewrite <- (calmw_id w0 Sc). rewrite (moved_calm _ _ _ _ _ M0). reflexivity.
  - destruct S as (io & -> & M & F). split; [apply M|]. right. exists io. split; [easy|]. split; [easy|].
    rewrite B0, (moved_bytes _ _ _ _ _ M), app_nil_r. apply prefix_refl.
Qed.

Ltac wsim_tac :=
  cbv beta;
  lazymatch goal with
  | |- wsim (bind get _) => apply wsim_get; [intro; wsim_tac|intro; reflexivity]
  | |- wsim (bind _ _) => apply wsim_bind; [wsim_tac|intro; wsim_tac]
  | |- wsim (let x := ?v in _) => cbv zeta; wsim_tac
  | |- wsim (match ?x with _ => _ end) => destruct x; wsim_tac
  | |- wsim (ret _) => apply wsim_ret
  | |- wsim (fail _) => apply wsim_fail
  | |- wsim (lift _) => apply wsim_lift
  | |- wsim (write_all _) => apply wsim_write_all
  | |- wsim ow_flush => apply wsim_ow_flush
  | |- wsim (modify _) => apply wsim_modify; intro; reflexivity
  | |- _ => idtac
  end.

Lemma wsim_enforce_zip64 : wsim enforce_zip64.
Proof.
  intro w. unfold sim_at, enforce_zip64. destruct w as [k o c f z cm]. destruct f; cbn.
  - split; [easy|]. split; [apply prefix_refl|]. exists []. split; [easy|]. now left.
  - split; [easy|]. split; [apply prefix_refl|]. exists []. split; [easy|]. now left.
Qed.
Lemma wsim_push_and_check f c : wsim (push_and_check f c).
Proof. unfold push_and_check. wsim_tac. Qed.
Lemma wsim_whole_body e d : wsim (whole_write_body e d).
Proof.
  unfold whole_write_body, enforce_zip64_sizes, enforce_zip64_offset.
  wsim_tac; first [apply wsim_enforce_zip64 | apply wsim_push_and_check].
Qed.
Lemma wsim_whole cd e d : wsim (write_entry_whole cd e d).
Proof. unfold write_entry_whole. wsim_tac; apply wsim_whole_body. Qed.
Lemma wsim_write_lfh e : wsim (write_lfh e).
Proof. unfold write_lfh. wsim_tac. Qed.
Lemma wsim_stream_open cd pre e : wsim (stream_open cd pre e).
Proof. unfold stream_open. wsim_tac; apply wsim_write_lfh. Qed.

(** a stored stream entry: [write_all] writes the data through *)
Lemma stored_write_all_loop {cd} : forall fu buf (sw : stream_writer cd) w, sw_enc sw = None -> (length buf < fu)%nat ->
  stream_write_all_loop fu sw buf w =
  (write_all_loop fu buf ;;;
   ret (sw_advance sw (hasher_update (sw_hasher sw) buf) (sw_uoffset sw + len buf) None)) w.
Proof.
  induction fu as [|fu IH]; intros buf sw w He Hf; [lia|].
  cbn [stream_write_all_loop write_all_loop]. destruct (N.eqb_spec (len buf) 0) as [E|E].
  - apply len_0 in E. subst buf. unfold bind, ret. cbn [hasher_update fold_left]. rewrite N.add_0_r.
    destruct sw; cbn in *. now subst.
  - unfold stream_write. rewrite He. unfold bind. pose proof (ow_write_spec buf w) as S.
    destruct (ow_write buf w) as [r w1]. destruct r as [n|e|p]; [|easy|easy].
    unfold ret at 1. cbv beta iota. destruct (N.eqb_spec n 0) as [Z|Z]; [reflexivity|].
    assert (L : (length (drop n buf) < fu)%nat).
    { pose proof (len_drop n buf). unfold len in *. lia. }
    rewrite IH by easy. unfold bind. destruct (write_all_loop fu (drop n buf) w1) as [[x|e|p] w2]; [|easy|easy].
    unfold ret, sw_advance. cbn. rewrite <- hasher_update_app, take_drop.
    destruct S as (u & S & _). rewrite len_drop.
    replace (sw_uoffset sw + n + (len buf - n)) with (sw_uoffset sw + len buf) by lia. reflexivity.
Qed.
Lemma stored_write_all {cd} buf (sw : stream_writer cd) w : sw_enc sw = None ->
  stream_write_all sw buf w =
  (write_all buf ;;; ret (sw_advance sw (hasher_update (sw_hasher sw) buf) (sw_uoffset sw + len buf) None)) w.
Proof. intros. apply stored_write_all_loop; [easy|lia]. Qed.

Lemma wsim_ext {A} (m m' : SM world A) : (forall w, m w = m' w) -> wsim m' -> wsim m.
Proof. intros E H w. specialize (H w). unfold sim_at in *. now rewrite !E. Qed.

Lemma wsim_enc_write_all {cd} : forall fu buf (sw : stream_writer cd), sw_enc sw <> None -> wsim (stream_write_all_loop fu sw buf).
Proof.
  induction fu as [|fu IH]; intros buf sw He; cbn [stream_write_all_loop]; [wsim_tac|].
  destruct (len buf =? 0); [apply wsim_ret|]. unfold stream_write. destruct (sw_enc sw) as [st|]; [|easy].
  destruct (enc_write cd st buf) as [[n out] st'].
  apply wsim_ext with (m' :=
    write_all out ;;;
    (let sw' := sw_advance sw (hasher_update (sw_hasher sw) (take n buf)) (sw_uoffset sw + n) (Some st') in
     if n =? 0 then fail (UpstreamReadError WriteZero) else stream_write_all_loop fu sw' (drop n buf))).
  { intros w. unfold bind, ret. destruct (write_all out w) as [[]]; reflexivity. }
  apply wsim_bind; [apply wsim_write_all|intros _]. cbv zeta. destruct (n =? 0); [apply wsim_fail|].
  apply IH. easy.
Qed.
Lemma wsim_stream_write_all {cd} (sw : stream_writer cd) buf : wsim (stream_write_all sw buf).
Proof.
  destruct (sw_enc sw) as [st|] eqn:E.
  - unfold stream_write_all. apply wsim_enc_write_all. now rewrite E.
  - apply wsim_ext with (m' := write_all buf ;;;
      ret (sw_advance sw (hasher_update (sw_hasher sw) buf) (sw_uoffset sw + len buf) None)).
    { intro. now apply stored_write_all. }
    wsim_tac.
Qed.
Lemma wsim_stream_flush {cd} (sw : stream_writer cd) : wsim (stream_flush sw).
Proof. unfold stream_flush. wsim_tac. Qed.
Lemma wsim_stream_body {cd} l : forall sw : stream_writer cd, wsim (stream_body sw l).
Proof.
  induction l as [|[b|] l IH]; intro sw; cbn [stream_body]; [wsim_tac| |].
  - apply wsim_bind; [apply wsim_stream_write_all|intro; apply IH].
  - apply wsim_bind; [apply wsim_stream_flush|intro; apply IH].
Qed.
Lemma wsim_stream_close {cd} (sw : stream_writer cd) : wsim (stream_close sw).
Proof.
  unfold stream_close, compressed_close, shutdown_ignored_close. wsim_tac; apply wsim_push_and_check.
Qed.
Lemma wsim_cd_entries l : wsim (write_cd_entries l).
Proof.
  induction l as [|c l IH]; cbn [write_cd_entries]; [wsim_tac|]. apply wsim_bind; [|now intro].
  unfold write_cd_entry. wsim_tac.
Qed.
Lemma wsim_close : wsim zw_close.
Proof.
  unfold zw_close. apply wsim_get; [intro v|intro; reflexivity]. cbv zeta.
  apply wsim_bind; [apply wsim_cd_entries|intros _]. wsim_tac.
Qed.
Lemma wsim_run_op cd o : wsim (run_op cd o).
Proof.
  destruct o; cbn [run_op]; try (apply wsim_modify; intro; reflexivity).
  - apply wsim_whole.
  - apply wsim_whole_body.
  - apply wsim_bind; [apply wsim_stream_open|intro sw]. apply wsim_bind; [apply wsim_stream_body|intro].
    destruct closed; [apply wsim_stream_close|apply wsim_ret].
Qed.

(** ** What every operation does, on any schedule: it appends, the offset follows, nothing that was
    recorded is lost, and the sink is never closed *)
Definition evol (w w' : world) : Prop :=
  (exists b, w_bytes w' = w_bytes w ++ b /\ w_offset w' = w_offset w + len b) /\
  prefix (w_cds w) (w_cds w') /\ k_closes (w_sink w') = k_closes (w_sink w) /\
  (exists u, w_sched w = u ++ w_sched w').
Lemma evol_refl w : evol w w.
Proof.
  split; [exists []; now rewrite app_nil_r, N.add_0_r|]. split; [apply prefix_refl|]. split; [easy|]. now exists [].
Qed.
Lemma evol_trans a b c : evol a b -> evol b c -> evol a c.
Proof.
  intros ((x & B1 & O1) & P1 & C1 & u & U1) ((y & B2 & O2) & P2 & C2 & v & U2).
  split; [exists (x ++ y); rewrite B2, B1, O2, O1, app_assoc, len_app; split; [easy|lia]|].
  split; [eapply prefix_trans; eassumption|]. split; [congruence|]. exists (u ++ v). now rewrite U1, U2, app_assoc.
Qed.
Lemma moved_evol w w' b u f : moved w w' b u f -> evol w w'.
Proof.
  intro M. split; [exists b; split; [eapply moved_bytes|eapply moved_offset]; exact M|].
  rewrite (moved_cds _ _ _ _ _ M). split; [apply prefix_refl|]. split; [eapply moved_closes; exact M|].
  exists u. apply M.
Qed.
Definition grows {A} (m : SM world A) : Prop := forall w, evol w (snd (m w)).
Lemma grows_ret {A} (a : A) : grows (ret a). Proof. intro. apply evol_refl. Qed.
Lemma grows_fail {A} e : grows (@fail _ A e). Proof. intro. apply evol_refl. Qed.
Lemma grows_lift {A} (r : res A) : grows (lift r). Proof. intro. apply evol_refl. Qed.
Lemma grows_get : grows get. Proof. intro. apply evol_refl. Qed.
Lemma grows_bind {A B} (m : SM world A) (k : A -> SM world B) : grows m -> (forall a, grows (k a)) -> grows (bind m k).
Proof.
  intros Hm Hk w. unfold bind. specialize (Hm w). destruct (m w) as [[a|e|p] w1]; [|easy|easy].
  eapply evol_trans; [exact Hm|apply Hk].
Qed.
Lemma grows_modify f : (forall w, evol w (f w)) -> grows (modify f).
Proof. intros H w. apply H. Qed.
Lemma grows_ow_write b : grows (ow_write b).
Proof.
  intro w. pose proof (ow_write_spec b w) as S. destruct (ow_write b w) as [[n|e|p] w']; destruct S as (u & S); [| |easy].
  - destruct S as (_ & M & _). eapply moved_evol; exact M.
  - destruct S as (io & _ & M & _). eapply moved_evol; exact M.
Qed.
Lemma grows_ow_flush : grows ow_flush.
Proof.
  intro w. pose proof (ow_flush_spec w) as S. destruct (ow_flush w) as [[n|e|p] w']; destruct S as (u & S); [| |easy].
  - destruct S as (_ & M & _). eapply moved_evol; exact M.
  - destruct S as (io & _ & M & _). eapply moved_evol; exact M.
Qed.
Lemma grows_write_all b : grows (write_all b).
Proof.
  intro w. pose proof (write_all_spec b w) as S. destruct (write_all b w) as [[n|e|p] w']; destruct S as (u & S); [| |easy].
  - destruct S as (M & _). eapply moved_evol; exact M.
  - destruct S as (io & p & _ & _ & M & _). eapply moved_evol; exact M.
Qed.
Lemma evol_zip64 w b : evol w (set_zip64 w b).
Proof. split; [exists []; cbn; now rewrite app_nil_r, N.add_0_r|]. split; [apply prefix_refl|]. split; [easy|]. now exists []. Qed.
Lemma evol_force w b : evol w (set_force_no w b).
Proof. split; [exists []; cbn; now rewrite app_nil_r, N.add_0_r|]. split; [apply prefix_refl|]. split; [easy|]. now exists []. Qed.
Lemma evol_comment w b : evol w (set_wcomment w b).
Proof. split; [exists []; cbn; now rewrite app_nil_r, N.add_0_r|]. split; [apply prefix_refl|]. split; [easy|]. now exists []. Qed.
Lemma evol_push w b : evol w (push_cd w b).
Proof. split; [exists []; cbn; now rewrite app_nil_r, N.add_0_r|]. split; [apply prefix_app|]. split; [easy|]. now exists []. Qed.

Ltac grows_tac :=
  cbv beta;
  lazymatch goal with
  | |- grows (bind _ _) => apply grows_bind; [grows_tac|intro; grows_tac]
  | |- grows (let x := ?v in _) => cbv zeta; grows_tac
  | |- grows (match ?x with _ => _ end) => destruct x; grows_tac
  | |- grows get => apply grows_get
  | |- grows (ret _) => apply grows_ret
  | |- grows (fail _) => apply grows_fail
  | |- grows (lift _) => apply grows_lift
  | |- grows (write_all _) => apply grows_write_all
  | |- grows (ow_write _) => apply grows_ow_write
  | |- grows ow_flush => apply grows_ow_flush
  | |- grows (modify _) => apply grows_modify; intro; first [apply evol_zip64|apply evol_force|apply evol_comment|apply evol_push]
  | |- _ => idtac
  end.
Lemma grows_enforce_zip64 : grows enforce_zip64.
Proof. intro w. unfold enforce_zip64. destruct (w_force_no w); [apply evol_refl|apply evol_zip64]. Qed.
Lemma grows_push_and_check f c : grows (push_and_check f c).
Proof. unfold push_and_check. grows_tac. Qed.
Lemma grows_whole_body e d : grows (whole_write_body e d).
Proof.
  unfold whole_write_body, enforce_zip64_sizes, enforce_zip64_offset.
  grows_tac; first [apply grows_enforce_zip64 | apply grows_push_and_check].
Qed.
Lemma grows_whole cd e d : grows (write_entry_whole cd e d).
Proof. unfold write_entry_whole. grows_tac; apply grows_whole_body. Qed.
Lemma grows_write_lfh e : grows (write_lfh e).
Proof. unfold write_lfh. grows_tac. Qed.
Lemma grows_stream_open cd pre e : grows (stream_open cd pre e).
Proof. unfold stream_open. grows_tac; apply grows_write_lfh. Qed.
Lemma grows_stream_write {cd} (sw : stream_writer cd) b : grows (stream_write sw b).
Proof. unfold stream_write. grows_tac. Qed.
Lemma grows_stream_write_all {cd} : forall fu (sw : stream_writer cd) b, grows (stream_write_all_loop fu sw b).
Proof.
  induction fu as [|fu IH]; intros; cbn [stream_write_all_loop]; [grows_tac|].
  destruct (len b =? 0); [grows_tac|]. apply grows_bind; [apply grows_stream_write|]. intros [n sw'].
  destruct (n =? 0); [grows_tac|apply IH].
Qed.
Lemma grows_stream_flush {cd} (sw : stream_writer cd) : grows (stream_flush sw).
Proof. unfold stream_flush. grows_tac. Qed.
Lemma grows_stream_body {cd} l : forall sw : stream_writer cd, grows (stream_body sw l).
Proof.
  induction l as [|[b|] l IH]; intro sw; cbn [stream_body]; [grows_tac| |].
  - apply grows_bind; [apply grows_stream_write_all|intro; apply IH].
  - apply grows_bind; [apply grows_stream_flush|intro; apply IH].
Qed.
Lemma grows_stream_close {cd} (sw : stream_writer cd) : grows (stream_close sw).
Proof. unfold stream_close, compressed_close, shutdown_ignored_close. grows_tac; apply grows_push_and_check. Qed.
Lemma grows_cd_entries l : grows (write_cd_entries l).
Proof.
  induction l as [|c l IH]; cbn [write_cd_entries]; [grows_tac|]. apply grows_bind; [|now intro].
  unfold write_cd_entry. grows_tac.
Qed.
Lemma grows_close : grows zw_close.
Proof.
  unfold zw_close. apply grows_bind; [apply grows_get|intro v]. cbv zeta.
  apply grows_bind; [apply grows_cd_entries|intros _]. grows_tac.
Qed.
Lemma grows_run_op cd o : grows (run_op cd o).
Proof.
  destruct o; cbn [run_op]; try solve [grows_tac].
  - apply grows_whole.
  - apply grows_whole_body.
  - apply grows_bind; [apply grows_stream_open|intro sw]. apply grows_bind; [apply grows_stream_body|intro].
    destruct closed; [apply grows_stream_close|apply grows_ret].
Qed.
Lemma evol_run_ops cd l : forall w, evol w (snd (run_ops cd l w)).
Proof.
  induction l as [|o l IH]; intro w; cbn [run_ops]; [apply evol_refl|].
  pose proof (grows_run_op cd o w) as G. destruct (run_op cd o w) as [x w1].
  specialize (IH w1). destruct (run_ops cd l w1) as [xs w2]. eapply evol_trans; eassumption.
Qed.
