(** Proofs about polled readers. *)
From Verif Require Import Base BaseFacts SpecFormat SpecCrc Crc32 CrcFacts SpecArchive SpecRead Headers Entry IO IOFacts Reader ReaderFacts EntryReader EntryReaderFacts
  EntryProofs ReadProofs ReaderPolls SpecReadPolls.

Lemma room_iff ns : (exists n, In n ns /\ 0 < n) <-> 0 < first_room ns.
Proof.
  induction ns as [|n ns IH]; cbn [first_room]; [split; [intros (n & [] & _)|lia]|].
  destruct (n =? 0) eqn:Z.
  - rewrite <- IH. split; intros (m & I & L); exists m; (split; [|exact L]); [destruct I; [lia|easy]|now right].
  - split; [lia|]. intros _. exists n. split; [now left|lia].
Qed.
Definition gave (p : rpoll) : bytes := match p with RGot b => b | _ => [] end.
Lemma poll_steps cd n r : let '(p, r') := er_poll_read cd n r in steps cd r r' (gave p) /\ (0 < n -> p = RGot [] -> content cd r = ([], true)).
Proof.
  destruct (N.eq_dec n 0) as [->|Hn].
  - pose proof (poll0_spec cd r) as P. destruct (er_poll_read cd 0 r) as [[|b|e] r1]; destruct P as (S & P); (split; [|lia]); cbn [gave]; try exact S.
    now destruct P as [-> _].
  - pose proof (poll_spec cd n r ltac:(lia)) as P. destruct (er_poll_read cd n r) as [[|b|e] r1]; cbn [poll_outcome gave] in *.
    + destruct P as (S & _). split; [exact S|discriminate].
    + destruct P as (S & E & _). split; [exact S|]. intros _ H. apply E. now inversion H.
    + destruct P as (S & _). split; [exact S|discriminate].
Qed.
Lemma call_steps cd c r : let '(p, r') := er_poll cd c r in steps cd r r' (gave p) /\ (at_end (c, p) -> content cd r = ([], true)).
Proof.
  destruct c as [n|ns]; cbn [er_poll].
  - pose proof (poll_steps cd n r) as P. destruct (er_poll_read cd n r) as [p r']. destruct P as [S E]. split; [exact S|].
    intros [R Z]. cbn [fst snd has_room] in R, Z. subst p. now apply E.
  - pose proof (poll_steps cd (first_room ns) r) as P. destruct (er_poll_read cd (first_room ns) r) as [p r']. destruct P as [S E]. split; [exact S|].
    intros [R Z]. cbn [fst snd has_room] in R, Z. subst p. apply E; [|reflexivity]. now apply room_iff.
Qed.
Lemma steps_spent cd r r' b : steps cd r r' b -> content cd r = ([], true) -> b = [] /\ content cd r' = ([], true).
Proof.
  intros S C. pose proof (steps_content _ _ _ _ S) as H. rewrite C in H. inversion H as [[H1 H2]]. symmetry in H1. apply app_eq_nil in H1 as [-> H1].
  split; [reflexivity|]. destruct (content cd r') as [x y]. cbn [fst snd] in *. congruence.
Qed.
Lemma polls_steps cd l : forall r, let '(ps, r') := er_polls cd l r in
  steps cd r r' (told ps) /\ (Exists at_end ps -> content cd r' = ([], true)).
Proof.
  induction l as [|c l IH]; intro r; cbn [er_polls]; [split; [apply steps_refl|inversion 1]|].
  pose proof (call_steps cd c r) as P. destruct (er_poll cd c r) as [p r1]. destruct P as [S E]. specialize (IH r1).
  destruct (er_polls cd l r1) as [ps r2]. destruct IH as [S2 E2]. split; [exact (steps_trans _ _ _ _ _ _ S S2)|].
  intro X. apply Exists_cons in X as [X|X]; [|now apply E2].
  destruct (steps_spent _ _ _ _ S (E X)) as [_ C]. apply (steps_spent _ _ _ _ S2 C).
Qed.

Lemma opened_at f i s r e s' : seek_reader_at f i s = (Ok (r, e), s') ->
  entry_at f i = Some e /\ r = er_new s' (en_compression (st_entry e)) (en_compressed_size (st_entry e)) /\
  s_data s' = s_data s /\ s_pos s' = data_start (s_data s) (st_file_offset e).
Proof.
  unfold seek_reader_at. destruct (entry_at f i) as [e1|]; [|discriminate]. unfold bind, get, ret.
  assert (I : insens (seek_to_data_offset e1)) by auto with insens. specialize (I s). unfold agrees in I.
  destruct (seek_closed e1 (s_data s) (s_pos s)) as (p & Ec & Hp). change (calm s) with (src (s_data s) (s_pos s)) in I.
  destruct (seek_to_data_offset e1 s) as [[[]|x|pn] s1]; try discriminate. intro H. inversion H; subst r e1 s1. clear H.
  rewrite Ec in I. destruct I as (_ & _ & D & u & _ & [(_ & R & C)|(pre & c & _ & _ & R)]); [|discriminate].
  split; [reflexivity|]. split; [reflexivity|]. split; [exact D|].
  destruct (data_offset (st_file_offset e) _) as [q|?|?] eqn:Q; try discriminate R.
  rewrite <- (data_offset_spec _ _ _ Q). rewrite <- (Hp q eq_refl). apply (f_equal s_pos) in C. exact C.
Qed.

Lemma polled_entry cd f i l s r e s' : seek_reader_at f i s = (Ok (r, e), s') ->
  let '(ps, r') := er_polls cd l r in
  let whole := decoded cd (en_compression (st_entry e)) (region (s_data s) e) in
  prefix (told ps) (fst whole) /\
  (Exists at_end ps -> whole = (told ps, true)) /\
  fst (er_compute_hash r') = Ok (crc32_spec (told ps)) /\
  (forall b, fst (er_read_to_end cd r') = Ok b -> whole = (told ps ++ b, true)) /\
  (forall b, fst (er_read_to_end_checked cd (st_entry e) r') = Ok b <->
     fst (er_read_to_end cd r') = Ok b /\ crc32_spec (told ps ++ b) = en_crc32 (st_entry e)).
Proof.
  intro H. destruct (opened_at _ _ _ _ _ _ H) as (_ & -> & D & P). clear H.
  pose proof (polls_steps cd l (er_new s' (en_compression (st_entry e)) (en_compressed_size (st_entry e)))) as S.
  destruct (er_polls cd l _) as [ps r']. destruct S as [S E]. cbv zeta.
  assert (C : decoded cd (en_compression (st_entry e)) (region (s_data s) e) = (told ps ++ fst (content cd r'), snd (content cd r'))).
  { rewrite region_take.
    rewrite <- P, <- D, <- content_new. now apply steps_content. }
  pose proof (st_hash _ _ _ _ S) as Hh. cbn [er_hash er_new] in Hh.
  rewrite C. cbn [fst]. split; [apply prefix_app|]. split; [intro X; rewrite (E X); cbn [fst snd]; now rewrite app_nil_r|].
  split; [cbn [er_compute_hash fst]; rewrite Hh; f_equal; apply (crc32_is_spec (told ps))|].
  pose proof (er_read_to_end_spec cd r') as T. split.
  - intros b B. destruct (er_read_to_end cd r') as [x r2]. cbn [fst] in B. subst x. destruct T as (u & _ & T & _). rewrite T. reflexivity.
  - intro b. rewrite er_read_to_end_checked_spec. destruct (er_read_to_end cd r') as [[x|x|p] r2]; cbn [fst]; [|split; [discriminate|intros [? _]; discriminate]|split; [discriminate|intros [? _]; discriminate]].
    assert (Hc : hasher_finalize (hasher_update (er_hash r') x) = crc32_spec (told ps ++ x)).
    { rewrite Hh, <- hasher_update_app. apply (crc32_is_spec (told ps ++ x)). }
    rewrite Hc. destruct (_ =? _) eqn:Q.
    + apply N.eqb_eq in Q. split; [intro B; inversion B; subst; auto|now intros [B _]].
    + apply N.eqb_neq in Q. split; [discriminate|]. intros [B K]. inversion B; subst. contradiction.
Qed.

Lemma use_keeps cd f u s : let '(x, s') := polled_use cd f u s in s_data s' = s_data s /\ exists v, s_sched s = v ++ s_sched s'.
Proof.
  destruct u as [i l]. unfold polled_use. cbn [fst snd].
  unfold seek_reader_at. destruct (entry_at f i) as [e|]; [|cbn; split; [reflexivity|now exists []]].
  unfold bind, get, ret. assert (I : insens (seek_to_data_offset e)) by auto with insens. specialize (I s). unfold agrees in I.
  destruct (seek_to_data_offset e s) as [x s1]. destruct (seek_to_data_offset e (calm s)) as [x0 s0].
  destruct I as (_ & _ & D & v & Hv & _). destruct x as [[]|x|p]; [|split; [easy|eauto]|split; [easy|eauto]].
  pose proof (polls_steps cd l (er_new s1 (en_compression (st_entry e)) (en_compressed_size (st_entry e)))) as S.
  destruct (er_polls cd l _) as [xs r]. destruct S as [[_ _ S1 (w & S2) _ _] _]. cbn [er_src er_new] in *.
  split; [congruence|]. exists (v ++ w). rewrite Hv, S2. now rewrite app_assoc.
Qed.
Lemma uses_keep cd f h : forall s, let '(xs, s') := polled_uses cd f h s in s_data s' = s_data s /\ exists v, s_sched s = v ++ s_sched s'.
Proof.
  induction h as [|u h IH]; intro s; cbn [polled_uses]; [split; [reflexivity|now exists []]|].
  pose proof (use_keeps cd f u s) as K. destruct (polled_use cd f u s) as [x s1]. specialize (IH s1). destruct (polled_uses cd f h s1) as [xs s2].
  destruct K as (D1 & v1 & E1), IH as (D2 & v2 & E2). split; [congruence|]. exists (v1 ++ v2). rewrite <- app_assoc, <- E2. exact E1.
Qed.
(** every use of the history hands over a beginning of its entry *)
Lemma history cd f h : forall s, let '(xs, s') := polled_uses cd f h s in
  Forall2 (fun u x => match x with
    | (Ok e, ps) => entry_at f (fst u) = Some e /\
        let whole := decoded cd (en_compression (st_entry e)) (region (s_data s) e) in
        prefix (told ps) (fst whole) /\ (Exists at_end ps -> whole = (told ps, true))
    | (_, ps) => ps = []
    end) h xs.
Proof.
  induction h as [|u h IH]; intro s; cbn [polled_uses]; [constructor|].
  pose proof (use_keeps cd f u s) as K. destruct (polled_use cd f u s) as [x s1] eqn:U. specialize (IH s1). destruct (polled_uses cd f h s1) as [xs s2].
  destruct K as [D _]. rewrite D in IH. constructor; [|exact IH]. clear IH.
  unfold polled_use in U. destruct (seek_reader_at f (fst u) s) as [[[r e]|y|p] s3] eqn:R; [|now inversion U|now inversion U].
  pose proof (polled_entry cd f (fst u) (snd u) s r e s3 R) as P. apply opened_at in R as (A & _).
  destruct (er_polls cd (snd u) r) as [ps r']. inversion U; subst x. split; [exact A|]. cbv zeta in P |- *. destruct P as (P1 & P2 & _). now split.
Qed.
Lemma after_history cd f h i s : let '(_, s') := polled_uses cd f h s in
  read_entry cd f i s' = read_entry cd f i (cursor (s_data s)) \/
  exists c, In (RFail c) (s_sched s') /\ read_entry cd f i s' = Err (UpstreamReadError (IoOther c)).
Proof.
  pose proof (uses_keep cd f h s) as K. destruct (polled_uses cd f h s) as [xs s']. destruct K as [D _]. rewrite <- D. apply read_entry_faults.
Qed.
