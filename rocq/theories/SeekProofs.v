(** Calls over a source with troublesome seeks against the same calls over one whose seeks are done at once. *)
From Verif Require Import Base BaseFacts SpecFormat SpecArchive SpecRead ZString ZDate Headers ExtraField Entry IO IOFacts Locator LocatorFacts Reader ReaderFacts
  OpenFacts TameFacts LfhFacts EntryReader EntryReaderFacts EntryProofs ReadProofs ExactTop ReaderPolls SpecReadPolls ReadPollProofs GiveUp Seeks SpecSeeks.

(** ** The relation *)
(** what is kept of the source whatever happens *)
Definition kept (h h' : harsh) : Prop :=
  s_data (h_src h') = s_data (h_src h) /\ h_max h' = h_max h /\
  (exists v, s_sched (h_src h) = v ++ s_sched (h_src h')) /\ exists v, h_seeks h = v ++ h_seeks h'.
Definition seek_fails {A} (h : harsh) (r : res A) : Prop := exists c p, In (KFail c p) (h_seeks h) /\ r = Err (UpstreamReadError (IoOther c)).
Definition refused {A} (r : res A) : Prop := r = Err (UpstreamReadError InvalidInput).
(** [P]: what a result must be like that a refused seek may have prevented *)
Definition sim_at {A} (P : A -> Prop) (h : harsh) (m' : HM A) (m : SM source A) : Prop :=
  forall n, let '(x, n', h') := m' n h in
  kept h h' /\
  match x with
  | Finished r => (n + waits h' = n' + waits h)%nat /\
      (m (h_src h) = (r, h_src h') \/ seek_fails h r \/ refused r /\ (roomy h -> forall a, fst (m (calm (h_src h))) = Ok a -> P a))
  | Left => (n < waits h)%nat
  end.
Definition never {A} (_ : A) : Prop := False.
Definition sim {A} (m' : HM A) (m : SM source A) : Prop := forall h, sim_at never h m' m.

Lemma kept_refl h : kept h h.
Proof. split; [reflexivity|]. split; [reflexivity|]. split; now exists []. Qed.
Lemma kept_trans a b c : kept a b -> kept b c -> kept a c.
Proof.
  intros (D & M & (v & V) & (u & U)) (D' & M' & (v' & V') & (u' & U')). split; [congruence|]. split; [congruence|].
  split; [exists (v ++ v')|exists (u ++ u')]; rewrite <- app_assoc; congruence.
Qed.
Lemma kept_roomy h h' : kept h h' -> roomy h -> roomy h'.
Proof. intros (D & M & _) [R R']. unfold roomy. rewrite D, M. now split. Qed.
Lemma kept_reports h h' c : kept h h' -> reports h' c -> reports h c.
Proof.
  intros (_ & _ & (v & V) & (u & U)) [I|(p & I)]; [left|right; exists p]; [rewrite V|rewrite U]; apply in_or_app; now right.
Qed.
Lemma kept_fails {A} h h' (r : res A) : kept h h' -> seek_fails h' r -> seek_fails h r.
Proof. intros (_ & _ & _ & (u & U)) (c & p & I & ->). exists c, p. split; [|reflexivity]. rewrite U. apply in_or_app. now right. Qed.
Lemma kept_waits h h' : kept h h' -> (waits h' <= waits h)%nat.
Proof.
  intros (_ & _ & (v & V) & (u & U)). unfold waits, read_waits, seek_waits. rewrite V, U, !filter_app, !app_length. lia.
Qed.

Lemma sim_weaken {A} (P Q : A -> Prop) h m' m : (forall a, P a -> Q a) -> sim_at P h m' m -> sim_at Q h m' m.
Proof.
  intros PQ H n. specialize (H n). destruct (m' n h) as [[[r|] n'] h']; [|exact H].
  destruct H as (K & W & [H|[H|[R H]]]); (split; [exact K|]); (split; [exact W|]); [now left|right; now left|right; right].
  split; [exact R|]. intros R' a E. exact (PQ a (H R' a E)).
Qed.
Lemma sim_lift {A} (P : A -> Prop) h (r : res A) : sim_at P h (hlift r) (lift r).
Proof. intro n. cbn. split; [apply kept_refl|]. split; [lia|]. now left. Qed.
Lemma sim_ret {A} (P : A -> Prop) h (a : A) : sim_at P h (hret a) (ret a).
Proof. exact (sim_lift P h (Ok a)). Qed.
Lemma sim_fail {A} (P : A -> Prop) h e : sim_at P h (@hfail A e) (fail e).
Proof. exact (sim_lift P h (Err e)). Qed.

Lemma sim_bind {A B} (P : B -> Prop) h (m' : HM A) (m : SM source A) (f' : A -> HM B) (f : A -> SM source B) :
  insens m -> sim_at never h m' m -> (forall a h', kept h h' -> m (h_src h) = (Ok a, h_src h') -> sim_at P h' (f' a) (f a)) ->
  sim_at P h (hbind m' f') (bind m f).
Proof.
  intros I0 Hm Hf n. unfold hbind, bind. specialize (Hm n). destruct (m' n h) as [[[r|] n'] h']; [|exact Hm].
  destruct Hm as (K & W & H).
  destruct r as [a|e|p].
  - assert (E : m (h_src h) = (Ok a, h_src h')) by (destruct H as [H|[(c & p & _ & H)|[H _]]]; [exact H|discriminate H|discriminate H]).
    destruct (any_ok m _ _ _ I0 E) as [C _]. assert (Dc : s_data (h_src h') = s_data (h_src h)) by apply K.
    change (src (s_data (h_src h)) (s_pos (h_src h))) with (calm (h_src h)) in C. rewrite <- Dc in C. fold (calm (h_src h')) in C.
    specialize (Hf a h' K E n'). destruct (f' a n' h') as [[[r|] n2] h2].
    + destruct Hf as (K2 & W2 & H2). split; [exact (kept_trans _ _ _ K K2)|]. split; [lia|]. rewrite E, C.
      destruct H2 as [H2|[H2|[R H2]]]; [now left|right; left; exact (kept_fails _ _ _ K H2)|right; right; split; [exact R|]].
      intro Ro. exact (H2 (kept_roomy _ _ K Ro)).
    + destruct Hf as (K2 & L). split; [exact (kept_trans _ _ _ K K2)|]. lia.
  - split; [exact K|]. split; [exact W|]. destruct H as [H|[(c & p & I & H)|[R H]]].
    + left. now rewrite H.
    + right. left. exists c, p. split; [exact I|]. now injection H as ->.
    + right. right. split; [unfold refused in *; now injection R as ->|]. intros Ro b. destruct (m (calm (h_src h))) as [[a|x|x] s1]; try discriminate. intros _. destruct (H Ro a eq_refl).
  - split; [exact K|]. split; [exact W|]. destruct H as [H|[(c & q & I & H)|[R H]]]; [|discriminate H|discriminate R]. left. now rewrite H.
Qed.

(** ** Reads *)
Definition reads {A} (m' : HM A) (m : SM source A) : Prop := forall h n, let '(x, n', h') := m' n h in
  kept h h' /\ match x with Finished r => (n + waits h' = n' + waits h)%nat /\ m (h_src h) = (r, h_src h') | Left => (n < waits h)%nat end.
Lemma reads_sim {A} (m' : HM A) m : reads m' m -> sim m' m.
Proof.
  intros R h n. specialize (R h n). destruct (m' n h) as [[[r|] n'] h']; [|exact R]. destruct R as (K & W & R). split; [exact K|]. split; [exact W|now left].
Qed.
Lemma reads_lift {A} (r : res A) : reads (hlift r) (lift r).
Proof. intros h n. cbn. split; [apply kept_refl|now split]. Qed.
Lemma reads_bind {A B} (m' : HM A) (m : SM source A) (f' : A -> HM B) (f : A -> SM source B) :
  reads m' m -> (forall a, reads (f' a) (f a)) -> reads (hbind m' f') (bind m f).
Proof.
  intros Hm Hf h n. unfold hbind, bind. specialize (Hm h n). destruct (m' n h) as [[[r|] n'] h']; [|exact Hm]. destruct Hm as (K & W & ->).
  destruct r as [a|e|p]; [|split; [exact K|split; [exact W|reflexivity]]..]. specialize (Hf a h' n'). destruct (f' a n' h') as [[[r|] n2] h2]; destruct Hf as (K2 & Hf); (split; [exact (kept_trans _ _ _ K K2)|]); [|lia].
  destruct Hf as (W2 & ->). split; [lia|reflexivity].
Qed.
Lemma reads_poll k : forall fuel, reads (h_read_poll fuel k) (read_poll fuel k).
Proof.
  induction fuel as [|f IH]; intros h n; [cbn; split; [apply kept_refl|now split]|].
  cbn [h_read_poll read_poll]. unfold poll_read.
  destruct (s_sched (h_src h)) as [|e q] eqn:Q.
  - cbn. split; [|split; [unfold waits; cbn [with_src h_src h_seeks s_sched]; rewrite Q; reflexivity|reflexivity]]. split; [reflexivity|]. split; [reflexivity|]. cbn. rewrite Q. split; now exists [].
  - assert (K : forall s, s_data s = s_data (h_src h) -> s_sched s = q -> kept h (with_src h s)).
    { intros s D S. split; [exact D|]. split; [reflexivity|]. cbn [with_src h_src h_seeks]. rewrite Q, S. split; [now exists [e]|now exists []]. }
    destruct e as [|c|c].
    + assert (Kp := K {| s_data := s_data (h_src h); s_pos := s_pos (h_src h); s_sched := q |} eq_refl eq_refl).
      assert (W : waits h = S (waits (with_src h {| s_data := s_data (h_src h); s_pos := s_pos (h_src h); s_sched := q |}))).
      { unfold waits. cbn [with_src h_src h_seeks s_sched]. rewrite Q. reflexivity. }
      destruct n as [|n]; [split; [exact Kp|lia]|].
      specialize (IH (with_src h {| s_data := s_data (h_src h); s_pos := s_pos (h_src h); s_sched := q |}) n).
      destruct (h_read_poll f k n _) as [[[r|] n'] h']; destruct IH as (K2 & IH); (split; [exact (kept_trans _ _ _ Kp K2)|]); [|lia].
      destruct IH as (W2 & IH). split; [lia|exact IH].
    + cbn [fst snd]. split; [apply K; reflexivity|]. split; [|reflexivity]. unfold waits. cbn [with_src h_src h_seeks s_sched]. rewrite Q. reflexivity.
    + cbn [fst snd]. split; [apply K; reflexivity|]. split; [|reflexivity]. unfold waits. cbn [with_src h_src h_seeks s_sched]. rewrite Q. reflexivity.
Qed.
Lemma reads_read k : reads (h_read k) (read k).
Proof. intros h n. exact (reads_poll k _ h n). Qed.
Lemma reads_exact_loop : forall fuel k, reads (h_read_exact_loop fuel k) (read_exact_loop fuel k).
Proof.
  induction fuel as [|f IH]; intros k; cbn [h_read_exact_loop read_exact_loop]; [apply reads_lift|].
  destruct (k =? 0); [apply (reads_lift (Ok _))|]. apply reads_bind; [apply reads_read|]. intro b. destruct (len b =? 0); [apply (reads_lift (Err _))|].
  apply reads_bind; [apply IH|]. intro. apply (reads_lift (Ok _)).
Qed.
Lemma reads_to_end_loop : forall fuel k, reads (h_read_to_end_loop fuel k) (read_to_end_loop fuel k).
Proof.
  induction fuel as [|f IH]; intros k; cbn [h_read_to_end_loop read_to_end_loop]; [apply reads_lift|].
  destruct (k =? 0); [apply (reads_lift (Ok _))|]. apply reads_bind; [apply reads_read|]. intro b. destruct (len b =? 0); [apply (reads_lift (Ok _))|].
  apply reads_bind; [apply IH|]. intro. apply (reads_lift (Ok _)).
Qed.
Lemma sim_read_exact k : sim (h_read_exact k) (read_exact k).
Proof. apply reads_sim. intros h n. exact (reads_exact_loop _ k h n). Qed.
Lemma sim_read_bytes k : sim (h_read_bytes k) (read_bytes k).
Proof. apply reads_sim. intros h n. exact (reads_to_end_loop _ k h n). Qed.
Lemma sim_fill : sim h_fill fill.
Proof. apply reads_sim. intros h n. exact (reads_to_end_loop _ BUFFER_SIZE h n). Qed.

(** ** Seeks *)
Definition beyond (h : harsh) (p : N) : Prop := u64_max < p \/ h_max h < p.
Lemma sim_seek_poll p : forall fuel h, (length (h_seeks h) < fuel)%nat ->
  forall n, let '(x, n', h') := h_seek_poll fuel p n h in
  kept h h' /\
  match x with
  | Finished r => (n + waits h' = n' + waits h)%nat /\ (r = Ok p /\ h_src h' = set_pos (h_src h) p /\ ~ beyond h p \/ seek_fails h r \/ refused r /\ beyond h p)
  | Left => (n < waits h)%nat
  end.
Proof.
  induction fuel as [|f IH]; intros h L n; [lia|]. cbn [h_seek_poll]. unfold poll_seek.
  set (at_ q l := {| h_src := set_pos (h_src h) q; h_seeks := l; h_max := h_max h |}).
  assert (K : forall v q l, h_seeks h = v ++ l -> kept h (at_ q l)).
  { intros v q l E. split; [reflexivity|]. split; [reflexivity|]. split; [now exists []|]. cbn [at_ h_seeks]. now exists v. }
  assert (Done : forall v l, h_seeks h = v ++ l -> seek_waits v = O ->
    let '(x, n', h') := match (if (p <=? u64_max) && (p <=? h_max h) then (KAt p, at_ p l) else (KErr InvalidInput, at_ (s_pos (h_src h)) l)) with
      | (KPend, h') => match n with O => (Left, O, h') | S n => h_seek_poll f p n h' end
      | (KAt q, h') => (Finished (Ok q), n, h')
      | (KErr e, h') => (Finished (Err (UpstreamReadError e)), n, h')
      end in
    kept h h' /\
    match x with
    | Finished r => (n + waits h' = n' + waits h)%nat /\ (r = Ok p /\ h_src h' = set_pos (h_src h) p /\ ~ beyond h p \/ seek_fails h r \/ refused r /\ beyond h p)
    | Left => (n < waits h)%nat
    end).
  { intros v l E V. assert (W : forall q, waits (at_ q l) = waits h).
    { intro q. unfold waits. cbn [at_ h_src h_seeks set_pos s_sched]. rewrite E. revert V. unfold seek_waits. rewrite filter_app, app_length. lia. }
    destruct ((p <=? u64_max) && (p <=? h_max h)) eqn:B; (split; [exact (K v _ l E)|]); rewrite W; (split; [reflexivity|]).
    - left. split; [reflexivity|]. split; [reflexivity|]. unfold beyond. lia.
    - right. right. split; [reflexivity|]. unfold beyond. lia. }
  destruct (h_seeks h) as [|[q| |c q] l] eqn:Q; cbn [length] in L.
  - exact (Done [] [] eq_refl eq_refl).
  - assert (Kp := K [KPending q] q l eq_refl). assert (W : waits h = S (waits (at_ q l))).
    { unfold waits. cbn [at_ h_src h_seeks set_pos s_sched]. rewrite Q. unfold seek_waits. cbn [filter length]. lia. }
    destruct n as [|n]; [split; [exact Kp|lia]|].
    pose proof (IH (at_ q l) ltac:(cbn; lia) n) as IH'. clear IH. rename IH' into IH.
    change {| h_src := set_pos (h_src h) q; h_seeks := l; h_max := h_max h |} with (at_ q l).
    destruct (h_seek_poll f p n (at_ q l)) as [[[r|] n'] h']; destruct IH as (K2 & IH); (split; [exact (kept_trans _ _ _ Kp K2)|]); [|lia].
    destruct IH as (W2 & IH). split; [lia|].
    destruct IH as [(-> & E & B)|[F|[R B]]]; [left|right; left; exact (kept_fails _ _ _ Kp F)|right; right; now split].
    split; [reflexivity|]. split; [|exact B]. rewrite E. reflexivity.
  - exact (Done [KDone] l eq_refl eq_refl).
  - split; [exact (K [KFail c q] q l eq_refl)|]. split; [|right; left; exists c, q; split; [rewrite Q; now left|reflexivity]].
    unfold waits. cbn [at_ h_src h_seeks set_pos s_sched]. rewrite Q. reflexivity.
Qed.
(** any use of a seek: if it is refused, what would have come of the rest must be excused by [P] *)
Lemma sim_seek {A} (P : A -> Prop) h p (f' : N -> HM A) (f : N -> SM source A) :
  (forall h', kept h h' -> h_src h' = set_pos (h_src h) p -> sim_at P h' (f' p) (f p)) ->
  (roomy h -> beyond h p -> forall a, fst (f p (set_pos (calm (h_src h)) p)) = Ok a -> P a) ->
  sim_at P h (hbind (h_seek_start p) f') (bind (seek_start p) f).
Proof.
  intros Hf Hb n. unfold hbind, bind, seek_start. cbv beta iota. unfold h_seek_start. pose proof (sim_seek_poll p (S (length (h_seeks h))) h ltac:(lia) n) as H.
  destruct (h_seek_poll _ p n h) as [[[r|] n'] h']; [|exact H]. destruct H as (K & W & [(-> & E & _)|[(c & q & I & ->)|[R B]]]).
  - specialize (Hf h' K E n'). rewrite E in Hf. destruct (f' p n' h') as [[[r|] n2] h2]; destruct Hf as (K2 & Hf); (split; [exact (kept_trans _ _ _ K K2)|]); [|lia].
    destruct Hf as (W2 & Hf). split; [lia|]. destruct Hf as [Hf|[Hf|[R Hf]]]; [now left|right; left; exact (kept_fails _ _ _ K Hf)|right; right; split; [exact R|]].
    intro Ro. exact (Hf (kept_roomy _ _ K Ro)).
  - split; [exact K|]. split; [exact W|]. right. left. now exists c, q.
  - unfold refused in R. subst r. split; [exact K|]. split; [exact W|]. right. right. split; [reflexivity|]. intro Ro. exact (Hb Ro B).
Qed.
Lemma roomy_beyond h p : roomy h -> beyond h p -> len (s_data (h_src h)) + 131070 < p.
Proof. intros [R R'] [B|B]; lia. Qed.
(** reading behind the end of the data *)
Definition starved {A} (m : SM source A) : Prop := forall s, len (s_data s) < s_pos s -> forall a, fst (m s) <> Ok a.
Lemma starved_exact k : 0 < k -> starved (read_exact k).
Proof.
  intros Z s L a E. pose proof (read_exact_ok k s) as O. destruct (read_exact k s) as [r s'] eqn:R. cbn [fst] in E. subst r.
  destruct O as (_ & used & _ & [(_ & O & _)|(pre & c & _ & _ & O)]); [|discriminate O].
  unfold exact_result, avail in O. rewrite drop_all in O by lia. change (len []) with 0 in O.
  destruct (k <=? 0) eqn:B; [lia|discriminate O].
Qed.
Lemma starved_bind {A B} (m : SM source A) (f : A -> SM source B) : starved m -> starved (bind m f).
Proof. intros S s L b E. unfold bind in E. destruct (m s) as [[a|e|p] s'] eqn:M; [|discriminate E|discriminate E]. apply (S s L a). now rewrite M. Qed.
Lemma sim_seek_starved {A} h p (f' : N -> HM A) (f : N -> SM source A) :
  (forall h', kept h h' -> h_src h' = set_pos (h_src h) p -> sim_at never h' (f' p) (f p)) -> starved (f p) ->
  sim_at never h (hbind (h_seek_start p) f') (bind (seek_start p) f).
Proof.
  intros Hf S. apply sim_seek; [exact Hf|]. intros Ro B a E. exfalso. apply (S (set_pos (calm (h_src h)) p)) with a; [|exact E].
  cbn [set_pos s_data s_pos calm src]. pose proof (roomy_beyond _ _ Ro B). lia.
Qed.
Lemma sim_seek_near {A} (P : A -> Prop) h p (f' : N -> HM A) (f : N -> SM source A) :
  (forall h', kept h h' -> h_src h' = set_pos (h_src h) p -> sim_at P h' (f' p) (f p)) -> p <= len (s_data (h_src h)) + 131070 ->
  sim_at P h (hbind (h_seek_start p) f') (bind (seek_start p) f).
Proof.
  intros Hf S. apply sim_seek; [exact Hf|]. intros Ro B a E. exfalso. pose proof (roomy_beyond _ _ Ro B). lia.
Qed.
Lemma sim_ext {A} (P : A -> Prop) h (m' k' : HM A) (m k : SM source A) :
  (forall n, m' n h = k' n h) -> m (h_src h) = k (h_src h) -> m (calm (h_src h)) = k (calm (h_src h)) -> sim_at P h k' k -> sim_at P h m' m.
Proof. intros E' E Ec H n. rewrite E', E, Ec. exact (H n). Qed.

(** ** Opening *)
#[local] Hint Resolve insens_fill insens_locate insens_eocdr_loop : insens.
Lemma sim_eocdr_loop : forall fuel length position h, position <= len (s_data (h_src h)) ->
  sim_at never h (h_eocdr_loop fuel length position) (eocdr_loop fuel length position).
Proof.
  induction fuel as [|f IH]; intros l p h L; cbn [h_eocdr_loop eocdr_loop]; [apply sim_lift|].
  apply sim_bind; [auto with insens|apply sim_fill|]. intros b h' K _. destruct (reverse_search_buffer _ _); [apply sim_ret|].
  destruct (_ || _); [apply sim_fail|]. assert (D : s_data (h_src h') = s_data (h_src h)) by apply K.
  apply sim_seek_near; [|rewrite D; lia]. intros h2 (D2 & _) _. apply IH. rewrite D2, D. lia.
Qed.
Lemma sim_locate : sim h_eocdr_locate eocdr_locate.
Proof.
  intro h. apply (sim_ext never h _ (hbind (h_seek_start (len (s_data (h_src h)))) (fun length => h_seek_start (length - BUFFER_SIZE) :;: h_eocdr_loop 64 length (length - BUFFER_SIZE)))
    _ (bind (seek_start (len (s_data (h_src h)))) (fun length => seek_start (length - BUFFER_SIZE) ;;; eocdr_loop 64 length (length - BUFFER_SIZE)))); [reflexivity|reflexivity|reflexivity|].
  apply sim_seek_near; [|lia]. intros h1 (D1 & _) _. apply sim_seek_near; [|rewrite D1; lia]. intros h2 (D2 & _) _. apply sim_eocdr_loop. rewrite D2, D1. lia.
Qed.
Lemma locate_within s q s' : eocdr_locate s = (Ok q, s') -> q <= len (s_data s).
Proof.
  intro E. destruct (any_ok _ _ _ _ insens_locate E) as [C _].
  destruct (locate_spec (s_data s) (s_pos s)) as [(q' & L & _ & O & _)|[L _]]; unfold locate in L; rewrite C in L; cbn [fst] in L; [|discriminate L].
  injection L as <-. apply occurs_iff in O as [O _]. change (len EOCDR_SIG) with 4 in O. lia.
Qed.
Ltac sims := first [apply sim_read_exact | apply sim_read_bytes | apply sim_ret | apply sim_fail | apply sim_lift].
Lemma sim_sig e : sim (h_assert_signature e) (assert_signature e).
Proof. intro h. apply sim_bind; [auto with insens|sims|]. intros b h' _ _. cbv zeta. destruct (_ =? _); sims. Qed.
Lemma sim_lfh : sim h_lfh_from_reader lfh_from_reader.
Proof. intro h. apply sim_bind; [auto with insens|sims|]. intros. sims. Qed.
Lemma sim_eocdr : sim h_eocdr_from_reader eocdr_from_reader.
Proof. intro h. apply sim_bind; [auto with insens|sims|]. intros. sims. Qed.
Lemma sim_cdr : sim h_cdr_from_reader cdr_from_reader.
Proof. intro h. apply sim_bind; [auto with insens|sims|]. intros. sims. Qed.
Lemma sim_z64 : sim h_z64_eocdr_from_reader z64_eocdr_from_reader.
Proof. intro h. apply sim_bind; [auto with insens|sims|]. intros. sims. Qed.
Lemma sim_z64l : sim h_z64_eocdl_try_from_reader z64_eocdl_try_from_reader.
Proof. intro h. apply sim_bind; [auto with insens|sims|]. intros. destruct (negb _); [sims|]. apply sim_bind; [auto with insens|sims|]. intros. sims. Qed.
Lemma sim_string l e : sim (h_read_string l e) (read_string l e).
Proof. intro h. apply sim_bind; [auto with insens|sims|]. intros. sims. Qed.
Lemma sim_cd_record cfg : sim (h_cd_record cfg) (cd_record cfg).
Proof.
  intro h. apply sim_bind; [auto with insens|apply sim_sig|]. intros _ h1 _ _. apply sim_bind; [auto with insens|apply sim_cdr|]. intros x h2 _ _. cbv zeta.
  apply sim_bind; [auto with insens|sims|]. intros nm h3 _ _. apply sim_bind; [auto with insens|sims|]. intros c h4 _ _. apply sim_bind; [auto with insens|sims|]. intros xf h5 _ _.
  apply sim_bind; [auto with insens|sims|]. intros fs h6 _ _. apply sim_bind; [auto with insens|sims|]. intros cm h7 _ _. destruct (get_combined_sizes _ _ _) as [us cs]. sims.
Qed.
Lemma sim_cd_loop cfg : forall fuel k h, sim_at never h (h_cd_loop cfg fuel k) (cd_loop cfg fuel k).
Proof.
  induction fuel as [|f IH]; intros k h; cbn [h_cd_loop cd_loop]; [sims|]. destruct (k =? 0); [sims|].
  apply sim_bind; [auto with insens|apply sim_cd_record|]. intros e h' _ _. apply sim_bind; [auto with insens|apply IH|]. intros. sims.
Qed.
Lemma sim_cd cfg k : sim (h_cd cfg k) (cd cfg k).
Proof.
  intro h. apply sim_bind; [auto with insens|sims|]. intros [] h' _ _. intro n. exact (sim_cd_loop cfg _ k h' n).
Qed.
Lemma starved_cd cfg k a s : len (s_data s) < s_pos s -> fst (cd cfg k s) = Ok a -> a = [].
Proof.
  intros L E. unfold cd, bind, lift, get in E. destruct (with_capacity cfg k) as [[]|x|x]; [|discriminate E|discriminate E].
  cbn [cd_loop] in E. destruct (k =? 0); [cbn in E; now injection E as <-|].
  exfalso. revert E. apply (starved_bind (cd_record cfg)); [|exact L]. apply starved_bind, starved_bind, starved_exact. lia.
Qed.

Lemma sim_file cfg h : sim_at (fun f => f_entries f = []) h (h_file cfg) (file cfg).
Proof.
  apply sim_bind; [auto with insens|apply sim_locate|]. intros q h1 K1 E1. apply locate_within in E1.
  assert (D1 : s_data (h_src h1) = s_data (h_src h)) by apply K1.
  apply sim_seek_near; [|rewrite D1; lia]. intros h2 (D2 & _) _.
  apply sim_bind; [auto with insens|apply sim_eocdr|]. intros e h3 (D3 & _) _. apply sim_bind; [auto with insens|apply sim_string|]. intros cm h4 (D4 & _) _.
  apply sim_bind.
  - insens_tac.
  - destruct (q <? _); [sims|]. apply sim_seek_starved.
    + intros h5 _ _. apply sim_bind; [auto with insens|apply sim_z64l|]. intros [l|] h6 _ _; [|sims]. apply sim_bind; [auto with insens|sims|]. intros p h7 _ _.
      apply sim_seek_starved; [intros h8 _ _; apply sim_bind; [auto with insens|apply sim_z64|]; intros; sims|].
      apply starved_bind, starved_bind, starved_exact. lia.
    + apply starved_bind, starved_bind, starved_exact. lia.
  - intros [cb z] h5 _ _. destruct (_ || _); [sims|]. apply sim_seek.
    + intros h6 _ _. apply sim_bind; [auto with insens|apply sim_cd|]. intros. sims.
    + intros Ro B f. unfold bind. destruct (cd cfg (cb_num_entries cb) _) as [[a|x|x] s'] eqn:C; try discriminate. cbn. intro E. injection E as <-. cbn.
      eapply starved_cd; [|rewrite C; reflexivity]. cbn [set_pos s_data s_pos calm src]. pose proof (roomy_beyond _ _ Ro B). lia.
Qed.

(** ** Entries *)
Lemma two_bytes a v : from_le (sub a (2 + a) v) <= 65535.
Proof.
  pose proof (from_le_bound (sub a (2 + a) v)) as B. assert (L : len (sub a (2 + a) v) <= 2) by (unfold sub, len; rewrite firstn_length; lia).
  assert (E : 256 ^ len (sub a (2 + a) v) <= 256 ^ 2) by (apply N.pow_le_mono_r; lia). change (256 ^ 2) with 65536 in E. lia.
Qed.
Lemma sim_data_offset e : sim (h_seek_to_data_offset e) (seek_to_data_offset e).
Proof.
  intro h. apply sim_seek_starved; [|apply starved_bind, starved_exact; lia]. intros h1 _ _.
  apply sim_bind; [auto with insens|sims|]. intros sg h2 _ _. cbv zeta. destruct (negb _); [sims|]. apply sim_bind; [auto with insens|apply sim_lfh|]. intros x h3 K3 E3.
  set (d := l_file_name_length x + l_extra_field_length x).
  destruct (s_pos (h_src h3) + d <=? u64_max) eqn:U.
  - apply (sim_ext never h3 _ (hbind (h_seek_start (s_pos (h_src h3) + d)) (fun _ => hret tt)) _ (bind (seek_start (s_pos (h_src h3) + d)) (fun _ => ret tt))); [reflexivity| | |].
    { unfold bind, seek_current, seek_start. now rewrite U. }
    { unfold bind, seek_current, seek_start. cbn [calm src s_pos]. now rewrite U. }
    apply sim_seek_near; [intros; sims|]. unfold lfh_from_reader, bind in E3.
    destruct (read_exact 26 (h_src h2)) as [[b|y|y] s1] eqn:R; [|discriminate E3|discriminate E3]. unfold ret in E3. injection E3 as <- Es.
    pose proof (read_exact_ok 26 (h_src h2)) as O. rewrite R in O. destruct O as (D & used & _ & [(_ & O & P)|(pre & c & _ & _ & O)]); [|discriminate O].
    unfold exact_result in O. destruct (26 <=? len (avail (h_src h2))) eqn:L; [|discriminate O]. injection O as ->.
    unfold avail in *. rewrite len_drop in L, P. rewrite <- Es, D. rewrite P.
    assert (B1 : l_file_name_length (lfh_from (take 26 (drop (s_pos (h_src h2)) (s_data (h_src h2))))) <= 65535) by apply (two_bytes 22).
    assert (B2 : l_extra_field_length (lfh_from (take 26 (drop (s_pos (h_src h2)) (s_data (h_src h2))))) <= 65535) by apply (two_bytes 24).
    unfold d. lia.
  - intro n. unfold hbind, bind, h_seek_current. unfold h_seek_start. pose proof (sim_seek_poll (s_pos (h_src h3) + d) (S (length (h_seeks h3))) h3 ltac:(lia) n) as H.
    destruct (h_seek_poll _ _ n h3) as [[[r|] n'] h']; [|exact H]. destruct H as (K & W & [(-> & _ & B)|[(c & q & I & ->)|[R B]]]).
    + exfalso. apply B. left. lia.
    + split; [exact K|]. split; [exact W|]. right. left. now exists c, q.
    + unfold refused in R. subst r. split; [exact K|]. split; [exact W|]. right. right. split; [reflexivity|]. intros _ a. unfold seek_current. cbn [calm src s_pos]. rewrite U. discriminate.
Qed.

Lemma sim_reader_at f i : sim (h_reader_at f i) (seek_reader_at f i).
Proof.
  intro h. unfold h_reader_at, seek_reader_at. destruct (entry_at f i) as [e|]; [|apply sim_fail].
  apply sim_bind; [auto with insens|apply sim_data_offset|]. intros [] h' _ _ n. cbn. split; [apply kept_refl|]. split; [lia|]. now left.
Qed.

(** ** What becomes of the calls *)
Lemma seek_fails_reports {A} h (r : res A) : seek_fails h r -> exists c, reports h c /\ r = Err (UpstreamReadError (IoOther c)).
Proof. intros (c & p & I & ->). exists c. split; [|reflexivity]. right. now exists p. Qed.
Lemma harsh_opening cfg n h :
  let '(x, n', h') := h_file cfg n h in
  s_data (h_src h') = s_data (h_src h) /\
  match x with
  | Finished r =>
      r = fst (file cfg (cursor (s_data (h_src h)))) \/
      (exists c, reports h c /\ r = Err (UpstreamReadError (IoOther c))) \/
      r = Err (UpstreamReadError InvalidInput) /\ (roomy h -> forall f, fst (file cfg (cursor (s_data (h_src h)))) = Ok f -> f_entries f = [])
  | Left => (n < waits h)%nat
  end.
Proof.
  pose proof (sim_file cfg h n) as H. destruct (h_file cfg n h) as [[x n'] h']. destruct H as (K & H). split; [apply K|].
  destruct x as [r|]; [|exact H]. destruct H as (_ & H).
  assert (C : forall p q, fst (file cfg (src (s_data (h_src h)) p)) = fst (file cfg (src (s_data (h_src h)) q))) by reflexivity.
  pose proof (insens_file cfg (h_src h)) as I. unfold agrees in I. destruct (file cfg (h_src h)) as [r1 s1] eqn:E1.
  change (calm (h_src h)) with (src (s_data (h_src h)) (s_pos (h_src h))) in I, H.
  change (cursor (s_data (h_src h))) with (src (s_data (h_src h)) 0). rewrite (C 0 (s_pos (h_src h))).
  destruct (file cfg (src (s_data (h_src h)) (s_pos (h_src h)))) as [r0 s0]. cbn [fst].
  destruct I as (_ & _ & _ & used & U & [(_ & -> & _)|(pre & c & -> & _ & ->)]).
  - destruct H as [H|[H|[R H]]]; [left; now injection H as -> _|right; left; now apply seek_fails_reports|right; right; split; [exact R|exact H]].
  - destruct H as [H|[H|[R H]]]; [|right; left; now apply seek_fails_reports|right; right; split; [exact R|exact H]].
    right. left. exists c. split; [left; rewrite U, <- app_assoc; apply in_or_app; right; now left|now injection H as -> _].
Qed.

Lemma harsh_entry cd f i n h :
  match h_read_entry cd f i n h with
  | Finished r =>
      r = read_entry cd f i (cursor (s_data (h_src h))) \/
      (exists c, reports h c /\ r = Err (UpstreamReadError (IoOther c))) \/
      r = Err (UpstreamReadError InvalidInput) /\ (roomy h -> forall b, read_entry cd f i (cursor (s_data (h_src h))) <> Ok b)
  | Left => (n < waits h)%nat
  end.
Proof.
  pose proof (sim_reader_at f i h n) as H. unfold h_read_entry. destruct (h_reader_at f i n h) as [[[r|] n'] h']; [|exact (proj2 H)]. destruct H as (K & _ & H).
  destruct H as [H|[H|[R H]]].
  - pose proof (read_entry_faults cd f i (h_src h)) as F. unfold read_entry at 1 3 in F. rewrite H in F.
    destruct r as [[x e]|x|x]; (destruct F as [F|(c & I & F)]; [now left|right; left; exists c; split; [now left|exact F]]).
  - apply seek_fails_reports in H as (c & I & ->). right. left. exists c. now split.
  - unfold refused in R. subst r. right. right. split; [reflexivity|]. intros Ro b E. unfold read_entry in E.
    assert (P : forall x, fst (seek_reader_at f i (cursor (s_data (h_src h)))) = Ok x -> False).
    { intros x X. apply (H Ro x). rewrite <- X. unfold seek_reader_at. destruct (entry_at f i); reflexivity. }
    destruct (seek_reader_at f i (cursor (s_data (h_src h)))) as [[x|x|x] s']; [exact (P x eq_refl)|discriminate E|discriminate E].
Qed.
Lemma opened_faults f i s : match seek_reader_at f i s with
  | (Ok (r, e), s') => opened_from f i (s_data s) = Ok e
  | (Err x, _) => opened_from f i (s_data s) = Err x \/ exists c, In (RFail c) (s_sched s) /\ x = UpstreamReadError (IoOther c)
  | (Panic p, _) => opened_from f i (s_data s) = Panic p
  end.
Proof.
  unfold opened_from, seek_reader_at. destruct (entry_at f i) as [e|]; [|now left].
  pose proof (insens_seek_to_data_offset e s) as I. unfold agrees in I. unfold bind, get, ret.
  change (seek_to_data_offset e (cursor (s_data s))) with (seek_to_data_offset e (calm s)).
  destruct (seek_to_data_offset e s) as [r s1]. destruct (seek_to_data_offset e (calm s)) as [r0 s0].
  destruct I as (_ & _ & _ & used & U & [(_ & -> & _)|(pre & c & -> & _ & ->)]).
  - destruct r0 as [[]|x|x]; [reflexivity|now left|reflexivity].
  - right. exists c. split; [|reflexivity]. rewrite U, <- app_assoc. apply in_or_app. right. now left.
Qed.
Lemma harsh_use_outcome cd f u h : let '(x, h') := harsh_use cd f u h in kept h h' /\ use_outcome cd f h u x.
Proof.
  destruct u as [[i n] l]. unfold harsh_use, use_outcome. pose proof (sim_reader_at f i h n) as H.
  destruct (h_reader_at f i n h) as [[[r|] n'] h']; destruct H as (K & H); [|split; [exact K|now split]]. destruct H as (_ & H).
  pose proof (opened_faults f i (h_src h)) as F.
  destruct r as [[r e]|x|x].
  - destruct H as [H|[(c & p & _ & H)|[H _]]]; [|discriminate H|discriminate H]. rewrite H in F.
    pose proof (polls_steps cd l r) as S. pose proof (polled_entry cd f i l _ _ _ _ H) as P. pose proof (opened_at _ _ _ _ _ _ H) as (_ & Er & D & _).
    destruct (er_polls cd l r) as [ps r']. split; [|split; [exact F|]]; [|cbv zeta in P |- *; destruct P as (P1 & P2 & _); now split].
    eapply kept_trans; [exact K|]. destruct S as [[_ _ S1 (w & S2) _ _] _]. subst r. cbn [er_src er_new] in *.
    split; [exact S1|]. split; [reflexivity|]. split; [now exists w|now exists []].
  - split; [exact K|]. split; [reflexivity|]. destruct H as [H|[H|[R H]]].
    + rewrite H in F. destruct F as [F|(c & I & ->)]; [now left|right; left; exists c; split; [now left|reflexivity]].
    + apply seek_fails_reports in H as (c & I & E). right. left. exists c. split; [exact I|now injection E as ->].
    + right. right. unfold refused in R. injection R as ->. split; [reflexivity|]. intros Ro e E. unfold opened_from in E.
      assert (P : forall y, fst (seek_reader_at f i (cursor (s_data (h_src h)))) = Ok y -> False).
      { intros y X. apply (H Ro y). rewrite <- X. unfold seek_reader_at. destruct (entry_at f i); reflexivity. }
      destruct (seek_reader_at f i (cursor (s_data (h_src h)))) as [[y|y|y] s']; [exact (P y eq_refl)|discriminate E|discriminate E].
  - split; [exact K|]. split; [reflexivity|]. destruct H as [H|[(c & p & _ & H)|[H _]]]; [|discriminate H|discriminate H]. rewrite H in F. now left.
Qed.
Lemma use_outcome_kept cd f h h' u x : kept h h' -> use_outcome cd f h' u x -> use_outcome cd f h u x.
Proof.
  intros K. unfold use_outcome. destruct u as [[i n] l], x as [[[e|x|x]|] ps]; pose proof K as (D & _); rewrite ?D.
  - exact (fun H => H).
  - intros (E & [H|[(c & I & H)|[R H]]]); (split; [exact E|]); [now left|right; left; exists c; split; [exact (kept_reports _ _ _ K I)|exact H]|].
    right. right. split; [exact R|]. intro Ro. exact (H (kept_roomy _ _ K Ro)).
  - intros (E & [H|[(c & I & H)|[R H]]]); (split; [exact E|]); [now left|right; left; exists c; split; [exact (kept_reports _ _ _ K I)|exact H]|].
    right. right. split; [exact R|]. intro Ro. exact (H (kept_roomy _ _ K Ro)).
  - intros [E L]. split; [exact E|]. pose proof (kept_waits _ _ K). lia.
Qed.
Lemma harsh_history cd f us : forall h, let '(xs, h') := harsh_uses cd f us h in kept h h' /\ Forall2 (use_outcome cd f h) us xs.
Proof.
  induction us as [|u us IH]; intro h; cbn [harsh_uses]; [split; [apply kept_refl|constructor]|].
  pose proof (harsh_use_outcome cd f u h) as U. destruct (harsh_use cd f u h) as [x h1]. specialize (IH h1). destruct (harsh_uses cd f us h1) as [xs h2].
  destruct U as (K & U), IH as (K2 & IH). split; [exact (kept_trans _ _ _ K K2)|]. constructor; [exact U|].
  induction IH; constructor; [|assumption]. now apply (use_outcome_kept cd f h h1).
Qed.
Lemma harsh_afterwards cd f us i n h : let '(_, h') := harsh_uses cd f us h in
  match h_read_entry cd f i n h' with
  | Finished r =>
      r = read_entry cd f i (cursor (s_data (h_src h))) \/
      (exists c, reports h' c /\ r = Err (UpstreamReadError (IoOther c))) \/
      r = Err (UpstreamReadError InvalidInput) /\ (roomy h -> forall b, read_entry cd f i (cursor (s_data (h_src h))) <> Ok b)
  | Left => (n < waits h')%nat
  end.
Proof.
  pose proof (harsh_history cd f us h) as H. destruct (harsh_uses cd f us h) as [xs h']. destruct H as (K & _).
  pose proof (harsh_entry cd f i n h') as E. pose proof K as (D & _). rewrite D in E. destruct (h_read_entry cd f i n h') as [r|]; [|exact E].
  destruct E as [E|[E|[R E]]]; [now left|right; now left|right; right; split; [exact R|]]. intro Ro. exact (E (kept_roomy _ _ K Ro)).
Qed.
