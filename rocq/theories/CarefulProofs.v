(** Proofs: entries copied from a stream, with their checksums compared. *)
From Verif Require Import Base BaseFacts Crc32 CrcFacts SpecFormat SpecCrc SpecArchive SpecRead SpecWrite SpecBlame SpecMade SpecExact SpecThrough SpecStream SpecSalvage SpecRemains ZString ZDate Headers ExtraField Entry IO IOFacts Reader
  EntryReader StreamReader Writer StreamPolls EncoderPolls AwaitedWrites SpecEncoder SpecLively SpecOrdinary LivelyProofs BlameProofs MadeProofs ReaderPolls SpecReadPolls DecoderPolls SpecDecoder DecoderProofs
  DecoderWalk SpecWalk DecoderWalkProofs ReadPollProofs SpecStrict ReaderFacts LfhFacts EntryProofs ReadProofs StreamProofs RoundTrip StreamWalk FrontProofs StrictProofs ExactProofs ExactTop ThroughProofs FaultWalkProofs SpecAwake AwakeProofs SpecEndure EndureProofs RemainsProofs MadeRead Piped PipedProofs Relay SpecRelay RelayProofs Careful SpecCareful.
Import Writer SpecReadPolls DecoderProofs FaultWalkProofs AwakeProofs.
Arguments N.add : simpl never.
Section Cared.
Context (cd : codec) (D : decoder) (view : dg_state D -> compression * bytes * bytes) (inv : dg_state D -> bytes -> Prop) (OK : decoder_ok cd D view inv).
Context (E : engine cd) (k : nat) (cfg : config) (heed : zentry -> bool).
Notation pipe := (pipe cd D E k).

(** [done] does not look at the checksum *)
Definition alike (a b : dreader D) : Prop := dr_src a = dr_src b /\ dr_limit a = dr_limit b /\ dr_state a = dr_state b.
Lemma poll_alike n a b : alike a b -> fst (dr_poll_read n a) = fst (dr_poll_read n b) /\ alike (snd (dr_poll_read n a)) (snd (dr_poll_read n b)).
Proof.
  destruct a as [s l g h], b as [s2 l2 g2 h2]. intros (E1 & E2 & E3). cbn in E1, E2, E3. subst. unfold dr_poll_read, dr_inner_poll. cbn [dr_src dr_limit dr_state dr_hash].
  destruct g2 as [g|].
  - destruct (dg_poll D n g s2 l2) as [[[[|b|e] g'] s'] l']; (split; [reflexivity|repeat split]).
  - destruct (l2 =? 0); [split; [reflexivity|repeat split]|]. destruct (poll_read (N.min n l2) s2) as [[|b|e] s']; (split; [reflexivity|repeat split]).
Qed.
Lemma read_alike n : forall j a b, alike a b -> fst (dr_read j n a) = fst (dr_read j n b) /\ alike (snd (dr_read j n a)) (snd (dr_read j n b)).
Proof.
  induction j as [|j IH]; intros a b A; cbn [dr_read]; [now split|]. pose proof (poll_alike n a b A) as P. destruct (dr_poll_read n a) as [p a'], (dr_poll_read n b) as [q b']. cbn [fst snd] in P. destruct P as (-> & A').
  destruct q; [now apply IH|now split..].
Qed.
Lemma done_hash j d (r : dreader D) h : dr_done j d {| dr_src := dr_src r; dr_limit := dr_limit r; dr_state := dr_state r; dr_hash := h |} = dr_done j d r.
Proof.
  unfold dr_done. set (r1 := {| dr_src := dr_src r; dr_limit := dr_limit r; dr_state := dr_state r; dr_hash := h |}). assert (A : alike r1 r) by (now repeat split).
  destruct (read_alike 1 j r1 r A) as (P & S & _). destruct (dr_read j 1 r1) as [p a'], (dr_read j 1 r) as [q b']. cbn [fst snd] in *. subst q. now rewrite S.
Qed.

(** ** One entry *)
(** what is known of an entry by what the walk says of it *)
Definition link (y : relay_plan) (v : stayed) (x : zentry * relayed) (part : list (wop * option (res unit))) : Prop :=
  fst x = sd_entry v /\
  match sd_left v with
  | Some done =>
    match rp_as y (sd_entry v), snd x with
    | None, PassedBy => part = []
    | Some e, Relayed r => done = true /\ (heed (sd_entry v) = true -> crc32_spec (told (sd_polls v)) = en_crc32 (sd_entry v)) /\ exists body, fed_bytes body = told (sd_polls v) /\ part = [(OpStream false e body true, r)]
    | Some e, CutOff r => (forall u, r <> Some (Ok u)) /\ exists body closed, fed_bytes body = told (sd_polls v) /\ part = [(OpStream false e body closed, r)]
    | Some e, Torn => done = true /\ (heed (sd_entry v) = true /\ crc32_spec (told (sd_polls v)) <> en_crc32 (sd_entry v)) /\ exists body, fed_bytes body = told (sd_polls v) /\ part = [(OpStream false e body false, Some (Ok tt))]
    | _, _ => False
    end
  | None => relay_lost part /\ relay_gives x = false
  end.
Lemma one_ends y rd w : relay_good y -> let '(x, t, o, w') := careful_one cd D E k heed y rd w in
  awaited_ops cd E k (map fst o) w = (o, w') /\ Forall op_good (map fst o) /\
  exists st, let '(ps, r') := dr_polls (sy_polls st) (dr_new D (er_src (rd_reader rd)) (er_comp (rd_reader rd)) (er_limit (rd_reader rd))) in
    let q := (if sy_done st then dr_done else dr_skip) (sy_patience st) (rd_descriptor rd) r' in
    let v left := {| sd_entry := rd_entry rd; sd_polls := ps; sd_left := left |} in
    match t with
    | Some (Ok s') => q = Some (Ok s') /\ ~ Exists found_bad ps /\ link y (v (Some (sy_done st))) (rd_entry rd, x) o
    | _ => (forall s', q <> Some (Ok s')) /\ link y (v None) (rd_entry rd, x) o
    end.
Proof.
  intros (F & SZ & EF). unfold careful_one. set (r0 := dr_new D (er_src (rd_reader rd)) (er_comp (rd_reader rd)) (er_limit (rd_reader rd))).
  assert (N0 : ~ Exists found_bad (@nil (read_call * rpoll))) by (intro X; inversion X).
  destruct (rp_as y (rd_entry rd)) as [e|] eqn:AS.
  2: { split; [reflexivity|]. split; [constructor|]. exists {| sy_polls := []; sy_done := false; sy_patience := rp_patience y |}. cbn [sy_polls sy_done sy_patience dr_polls].
       destruct (dr_skip (rp_patience y) (rd_descriptor rd) r0) as [[s'|x|x]|].
       1: split; [reflexivity|]; split; [exact N0|]; split; [reflexivity|]; cbn [sd_left sd_entry snd]; now rewrite AS.
       all: split; [intro; discriminate|]; split; [reflexivity|]; split; [now left|reflexivity]. }
  specialize (EF _ _ AS).
  assert (GOOD : forall body closed, len (fed_bytes body) < 0x10000000000000000 -> op_good (OpStream false e body closed)) by (intros body closed L; now split).
  destruct (stream_open cd false e w) as [[sw|x|x] w1] eqn:SO.
  2,3: (split; [cbn [map fst]; rewrite (one_op cd E k (OpStream false e (map SWriteAll []) true)); unfold awaited_op, run_op, bind; rewrite SO; reflexivity|];
    split; [constructor; [now apply GOOD|constructor]|]; exists {| sy_polls := []; sy_done := false; sy_patience := rp_patience y |}; cbn [sy_polls sy_done sy_patience dr_polls];
    destruct (dr_skip (rp_patience y) (rd_descriptor rd) r0) as [[s'|z|z]|];
    [split; [reflexivity|]; split; [exact N0|]; split; [reflexivity|]; cbn [sd_left sd_entry snd]; rewrite AS; split; [intro; discriminate|]; exists [], true; split; reflexivity
    |split; [intro; discriminate|]; split; [reflexivity|]; split; [right; exists e, [], true; eexists; split; [reflexivity|right; intro; discriminate]|reflexivity]..]).
  change (sw, match sw_enc sw with Some st => Some (eg_new E st) | None => None end) with (outlet_of cd E sw).
  pose proof (pipe_polls cd D E k (rp_buffers y) r0 (outlet_of cd E sw) w1 F) as PP. pose proof (pipe_writer cd D E k (rp_buffers y) r0 (outlet_of cd E sw) w1) as PW.
  pose proof (pipe_sized cd D view inv OK E k _ _ _ (rp_buffers y) r0 (outlet_of cd E sw) w1 _ (midway_new cd D view inv OK (er_src (rd_reader rd)) (er_comp (rd_reader rd)) (er_limit (rd_reader rd)))) as PZ.
  destruct (pipe (rp_buffers y) r0 (outlet_of cd E sw) w1) as [[[x r'] c] w2]. destruct PP as (l & ps & P & T & X).
  assert (LC : len (fed_bytes (map SWriteAll c)) < 0x10000000000000000) by (rewrite fed_map; lia).
  assert (FT : fed_bytes (map SWriteAll c) = told ps) by (rewrite fed_map; now symmetry).
  destruct x as [o|z|z].
  - destruct (poured_shut cd E k _ _ _ _ _ _ _ SO PW) as (W1 & W2). destruct X as (AE & NB).
    assert (HS : hasher_finalize (dr_hash r') = crc32_spec (told ps)).
    { pose proof (polls_midway cd D view inv OK _ _ _ l _ _ (midway_new cd D view inv OK (er_src (rd_reader rd)) (er_comp (rd_reader rd)) (er_limit (rd_reader rd)))) as PM. fold r0 in PM. rewrite P in PM.
      destruct PM as (_ & _ & _ & PM). destruct (PM NB) as ((PM1 & _) & _). cbn [app] in PM1. rewrite PM1. change (hasher_finalize (hasher_update hasher_new (told ps))) with (crc32 (told ps)). apply crc32_is_spec. }
    cbv beta iota zeta delta [dr_compute_hash]. rewrite done_hash.
    destruct (dr_done (rp_patience y) (rd_descriptor rd) r') as [[s'|z|z]|] eqn:DN.
    2-4: (split; [cbn [map fst]; rewrite one_op, W2; reflexivity|]; split; [constructor; [now apply GOOD|constructor]|];
      exists {| sy_polls := l; sy_done := true; sy_patience := rp_patience y |}; cbn [sy_polls sy_done sy_patience]; rewrite P; cbv zeta; rewrite DN;
      split; [intro; discriminate|]; split; [reflexivity|]; split; [right; exists e, (map SWriteAll c), false; eexists; split; [reflexivity|now left]|reflexivity]).
    destruct (negb (heed (rd_entry rd)) || (hasher_finalize (dr_hash r') =? en_crc32 (rd_entry rd))) eqn:HD.
    2: { apply orb_false_iff in HD as [HD1 HD2]. apply negb_false_iff in HD1. apply N.eqb_neq in HD2. rewrite HS in HD2.
      split; [cbn [map fst]; rewrite one_op, W2; reflexivity|]. split; [constructor; [now apply GOOD|constructor]|].
      exists {| sy_polls := l; sy_done := true; sy_patience := rp_patience y |}. cbn [sy_polls sy_done sy_patience]. rewrite P. cbv zeta. split; [exact DN|]. split; [exact NB|]. split; [reflexivity|].
      cbn [sd_left sd_entry snd sd_polls]. rewrite AS. split; [reflexivity|]. split; [now split|]. exists (map SWriteAll c). split; [exact FT|reflexivity]. }
    assert (HF : heed (rd_entry rd) = true -> crc32_spec (told ps) = en_crc32 (rd_entry rd)) by (intro HT; rewrite HT in HD; cbn [negb orb] in HD; apply N.eqb_eq in HD; congruence).
    destruct (shut cd E k o w2) as [z w3] eqn:SH.
    split; [cbn [map fst]; rewrite one_op, W1; reflexivity|]. split; [constructor; [now apply GOOD|constructor]|].
    exists {| sy_polls := l; sy_done := true; sy_patience := rp_patience y |}. cbn [sy_polls sy_done sy_patience]. rewrite P. cbv zeta. split; [exact DN|]. split; [exact NB|]. split; [reflexivity|].
    cbn [sd_left sd_entry snd sd_polls]. rewrite AS. split; [reflexivity|]. split; [exact HF|]. exists (map SWriteAll c). split; [exact FT|reflexivity].
  - destruct PW as (o & PW). destruct (poured_shut cd E k _ _ _ _ _ _ _ SO PW) as (_ & W2).
    assert (G : exists st, let '(ps, r') := dr_polls (sy_polls st) r0 in
      (forall s', (if sy_done st then dr_done else dr_skip) (sy_patience st) (rd_descriptor rd) r' <> Some (Ok s')) /\
      link y {| sd_entry := rd_entry rd; sd_polls := ps; sd_left := None |} (rd_entry rd, Torn) [(OpStream false e (map SWriteAll c) false, Some (Ok tt))]).
    { exists {| sy_polls := l; sy_done := true; sy_patience := 0 |}. cbn [sy_polls sy_done sy_patience]. rewrite P. split; [intros s' Q; discriminate Q|].
      split; [reflexivity|]. split; [right; exists e, (map SWriteAll c), false; eexists; split; [reflexivity|now left]|reflexivity]. }
    split; [cbn [map fst]; rewrite one_op, W2; reflexivity|]. split; [constructor; [now apply GOOD|constructor]|].
    destruct z as [[u|z|z]|]; exact G.
  - destruct (poured_failed cd E k _ _ _ _ _ _ _ SO PW) as (NY & W2).
    split; [cbn [map fst]; rewrite one_op, W2; reflexivity|]. split; [constructor; [now apply GOOD|constructor]|].
    exists {| sy_polls := l; sy_done := false; sy_patience := rp_patience y |}. cbn [sy_polls sy_done sy_patience]. rewrite P. cbv zeta.
    destruct (dr_skip (rp_patience y) (rd_descriptor rd) r') as [[s'|q|q]|].
    1: split; [reflexivity|]; split; [exact X|]; split; [reflexivity|]; cbn [sd_left sd_entry snd]; rewrite AS; split; [exact NY|]; exists (map SWriteAll c), false; split; [exact FT|reflexivity].
    all: split; [intro; discriminate|]; split; [reflexivity|]; split; [right; exists e, (map SWriteAll c), false; eexists; split; [reflexivity|now left]|reflexivity].
Qed.

(** ** All of them *)
Inductive linked : list relay_plan -> list stayed -> list (zentry * relayed) -> list (list (wop * option (res unit))) -> Prop :=
| lk_none l : linked l [] [] []
| lk_entry y l v vs x xs part parts : link y v x part -> linked l vs xs parts -> linked (y :: l) (v :: vs) (x :: xs) (part :: parts).
Lemma care_walks l : Forall relay_good l -> forall s w, let '(xs, z, outs, w') := careful cd D E k cfg heed l s w in
  awaited_ops cd E k (map fst outs) w = (outs, w') /\ Forall op_good (map fst outs) /\
  exists l' ys z' parts, d_walk D cfg l' s = (ys, z') /\ Forall heeds ys /\ (forall u, z = Some (Ok u) -> z' = Some (Ok u)) /\ outs = concat parts /\ linked l ys xs parts.
Proof.
  induction l as [|y l IH]; intros G s w; cbn [careful].
  { split; [reflexivity|]. split; [constructor|]. exists [], [], None, []. split; [reflexivity|]. split; [constructor|]. split; [discriminate|]. split; [reflexivity|constructor]. }
  apply Forall_cons_iff in G as [G1 G]. set (st0 := {| sy_polls := []; sy_done := false; sy_patience := 0 |}).
  destruct (stream_next cfg s) as [[[rd|]|e|e] s1] eqn:NX.
  2: { split; [reflexivity|]. split; [constructor|]. exists [st0], [], (Some (Ok tt)), []. cbn [d_walk]. rewrite NX. split; [reflexivity|]. split; [constructor|]. split; [now intros []|]. split; [reflexivity|constructor]. }
  2: { split; [reflexivity|]. split; [constructor|]. exists [st0], [], (Some (Err e)), []. cbn [d_walk]. rewrite NX. split; [reflexivity|]. split; [constructor|]. split; [now intros []|]. split; [reflexivity|constructor]. }
  2: { split; [reflexivity|]. split; [constructor|]. exists [st0], [], (Some (Panic e)), []. cbn [d_walk]. rewrite NX. split; [reflexivity|]. split; [constructor|]. split; [now intros []|]. split; [reflexivity|constructor]. }
  pose proof (one_ends y rd w G1) as H. destruct (careful_one cd D E k heed y rd w) as [[[x t] o] w1]. destruct H as (A & GO & st & H).
  destruct (dr_polls (sy_polls st) (dr_new D (er_src (rd_reader rd)) (er_comp (rd_reader rd)) (er_limit (rd_reader rd)))) as [ps r'] eqn:DP. cbv zeta in H.
  assert (LAST : forall z : option (res unit), (forall u, z <> Some (Ok u)) ->
    (forall s', (if sy_done st then dr_done else dr_skip) (sy_patience st) (rd_descriptor rd) r' <> Some (Ok s')) /\ link y {| sd_entry := rd_entry rd; sd_polls := ps; sd_left := None |} (rd_entry rd, x) o ->
    awaited_ops cd E k (map fst o) w = (o, w1) /\ Forall op_good (map fst o) /\
    exists l' ys z' parts, d_walk D cfg l' s = (ys, z') /\ Forall heeds ys /\ (forall u, z = Some (Ok u) -> z' = Some (Ok u)) /\ o = concat parts /\ linked (y :: l) ys [(rd_entry rd, x)] parts).
  { intros z NZ (NQ & LK). split; [exact A|]. split; [exact GO|].
    set (q := (if sy_done st then dr_done else dr_skip) (sy_patience st) (rd_descriptor rd) r') in *.
    exists [st], [{| sd_entry := rd_entry rd; sd_polls := ps; sd_left := None |}], (match q with Some (Err e) => Some (Err e) | Some (Panic p) => Some (Panic p) | _ => None end), [o].
    split; [cbn [d_walk]; rewrite NX, DP; fold q; destruct q as [[s'|e|e]|]; [now elim (NQ s')|reflexivity..]|]. split; [constructor; [intro N; now elim N|constructor]|].
    split; [intros u U; now elim (NZ u)|]. split; [cbn [concat]; now rewrite app_nil_r|]. constructor; [exact LK|constructor]. }
  destruct t as [[s'|e|e]|]; [|apply LAST; [intro; discriminate|exact H]..]. clear LAST.
  destruct H as (Q & NB & LK). specialize (IH G s' w1). destruct (careful cd D E k cfg heed l s' w1) as [[[xs z] os] w2]. destruct IH as (A2 & GO2 & l' & ys & z' & parts & W & HE & ZZ & EQ & LL).
  split; [rewrite map_app, ops_app, A, A2; reflexivity|]. split; [rewrite map_app; apply Forall_app; now split|].
  exists (st :: l'), ({| sd_entry := rd_entry rd; sd_polls := ps; sd_left := Some (sy_done st) |} :: ys), z', (o :: parts).
  split; [cbn [d_walk]; rewrite NX, DP, Q, W; reflexivity|]. split; [constructor; [intros _; exact NB|exact HE]|]. split; [exact ZZ|]. split; [cbn [concat]; now rewrite EQ|]. now constructor.
Qed.
Lemma linked_as es : forall l ys1 zs xs parts, Forall2 visited_as es ys1 -> Forall (fun y => sd_left y <> None) ys1 -> linked l (ys1 ++ zs) xs parts ->
  exists xs1 xs2 parts1 parts2, xs = xs1 ++ xs2 /\ parts = parts1 ++ parts2 /\ cares_as heed l es xs1 parts1 /\ linked (skipn (length es) l) zs xs2 parts2.
Proof.
  induction es as [|z es IH]; intros l ys1 zs xs parts V LF LK.
  { inversion V; subst. exists [], xs, [], parts. split; [reflexivity|]. split; [reflexivity|]. split; [constructor|exact LK]. }
  inversion V as [|? v ? vs V1 V2]; subst. apply Forall_cons_iff in LF as [L1 LF]. cbn [app] in LK. inversion LK as [|y l1 ? ? x xs0 part ps LK1 LK2]; subst.
  destruct (IH _ _ _ _ _ V2 LF LK2) as (xs1 & xs2 & p1 & p2 & -> & -> & RA & LZ). exists (x :: xs1), xs2, (part :: p1), p2. split; [reflexivity|]. split; [reflexivity|]. split; [|exact LZ].
  constructor; [|exact RA]. destruct LK1 as (FX & LK1). destruct V1 as (VE & VP & VA). split; [congruence|]. rewrite VE in LK1. destruct (sd_left v) as [dn|]; [|now elim L1].
  destruct (rp_as y (fst z)) as [e|], (snd x) as [|r|r|]; try exact LK1.
  - destruct LK1 as (-> & SF & body & FB & ->). assert (TA : told (sd_polls v) = snd z) by (apply VA; now right). rewrite TA in *. split; [intro HT; apply SF; congruence|]. exists body. split; [exact FB|reflexivity].
  - destruct LK1 as (NY & body & closed & FB & ->). split; [exact NY|]. exists body, closed. split; [now rewrite FB|reflexivity].
  - destruct LK1 as (-> & (SF1 & SF2) & body & FB & ->). assert (TA : told (sd_polls v) = snd z) by (apply VA; now right). rewrite TA in *. split; [split; congruence|]. exists body. split; [exact FB|reflexivity].
Qed.
Lemma care_told l s w0 xs z outs w : Forall relay_good l -> len (s_data s) < 0x10000000000000000 -> careful cd D E k cfg heed l s w0 = (xs, z, outs, w) ->
  awaited_ops cd E k (map fst outs) w0 = (outs, w) /\ Forall op_good (map fst outs) /\
  exists es rest xs1 xs2 parts lost, xs = xs1 ++ xs2 /\ outs = concat parts ++ lost /\ entries_here cd (past (s_pos s) (s_data s)) es rest /\ cares_as heed l es xs1 parts /\
    (xs2 = [] /\ lost = [] \/ exists x, xs2 = [x] /\ relay_gives x = false /\ relay_lost lost) /\
    (forall u, z = Some (Ok u) -> xs2 = [] /\ exists b, rest = le 4 0x02014b50 ++ b).
Proof.
  intros G LD R. pose proof (care_walks l G s w0) as H. rewrite R in H. destruct H as (A & GO & l' & ys & z' & parts & W & HE & ZZ & EQ & LL). split; [exact A|]. split; [exact GO|].
  destruct (walk_passed cd D view inv OK cfg (s_data s) LD l' s ys z' eq_refl W HE) as (es & rest & ys1 & zs & -> & EH & V & LF & Z & O).
  destruct (linked_as es _ _ _ _ _ V LF LL) as (xs1 & xs2 & p1 & p2 & -> & -> & RA & LZ).
  assert (X : xs2 = [] /\ concat p2 = [] /\ zs = [] \/ exists x, xs2 = [x] /\ relay_gives x = false /\ relay_lost (concat p2) /\ zs <> []).
  { destruct Z as [->|(y & -> & NL & _)]; [inversion LZ; subst; now left|]. inversion LZ as [|? ? ? ? x ? part ? (_ & LK) LN]; subst. inversion LN; subst. rewrite NL in LK. right. exists x.
    split; [reflexivity|]. split; [exact (proj2 LK)|]. split; [cbn [concat]; rewrite app_nil_r; exact (proj1 LK)|discriminate]. }
  exists es, rest, xs1, xs2, p1, (concat p2). split; [reflexivity|]. split; [rewrite EQ; apply concat_app|]. split; [exact EH|]. split; [exact RA|].
  split; [destruct X as [(X1 & X2 & _)|(x & X1 & X2 & X3 & _)]; [left; now split|right; now exists x]|].
  intros u U. destruct (O u (ZZ u U)) as (-> & B). split; [|exact B]. destruct X as [(X1 & _)|(x & _ & _ & _ & NZ)]; [exact X1|now elim NZ].
Qed.

(** ** The new archive *)
Lemma care_streams y z x part : care_amounts heed y z x part -> streams (map settled part) /\ length (succeeded false (map settled part)) = if relay_gives x then 1%nat else 0%nat.
Proof.
  intros (_ & H). unfold relay_gives. destruct (rp_as y (fst z)) as [e|], (snd x) as [|r|r|]; [destruct H| | | | |destruct H..].
  - destruct H as (_ & body & _ & ->). split; [destruct r as [[u|q|q]|]; (constructor; [exact I|constructor])|]. destruct r as [[[]|q|q]|]; reflexivity.
  - destruct H as (NR & body & closed & _ & ->). split; [destruct r as [[u|q|q]|]; (constructor; [exact I|constructor])|]. destruct r as [[u|q|q]|]; [now elim (NR u)|cbn; now rewrite ?andb_false_r..].
  - destruct H as (_ & body & _ & ->). split; [constructor; [exact I|constructor]|reflexivity].
  - subst part. split; [constructor|reflexivity].
Qed.
Lemma cares_all l es xs parts : cares_as heed l es xs parts -> length (succeeded false (map settled (concat parts))) = length (filter relay_gives xs).
Proof.
  induction 1 as [|y l z es x xs part parts A RA IH]; [reflexivity|]. cbn [concat]. rewrite map_app. destruct (care_streams _ _ _ _ A) as (ST & LE). rewrite (streams_app _ _ ST), app_length, LE, IH.
  cbn [filter]. now destruct (relay_gives x).
Qed.
Lemma cares_at l es xs parts : cares_as heed l es xs parts -> forall p z u, nth_error xs p = Some (z, Relayed (Some (Ok u))) ->
  exists y e data body, nth_error l p = Some y /\ nth_error es p = Some (z, data) /\ rp_as y z = Some e /\ sum_fits heed (z, data) /\ fed_bytes body = data /\
    nth_error (succeeded false (map settled (concat parts))) (relay_place p xs) = Some (false, OpStream false e body true).
Proof.
  induction 1 as [|y l z es x xs part parts A RA IH]; intros p z0 u NX; [destruct p; discriminate NX|]. cbn [concat]. rewrite map_app. destruct (care_streams _ _ _ _ A) as (ST & LE). rewrite (streams_app _ _ ST).
  destruct p as [|p]; cbn [nth_error] in *.
  - injection NX as ->. destruct A as (FZ & A). cbn [fst snd] in *. destruct (rp_as y (fst z)) as [e|] eqn:AS; [|destruct A]. destruct A as (SF & body & FB & ->). exists y, e, (snd z), body.
    split; [reflexivity|]. split; [f_equal; now destruct z; cbn [fst snd] in *; subst|]. split; [now rewrite FZ|]. split; [unfold sum_fits in *; cbn [fst snd]; rewrite FZ; exact SF|]. split; [exact FB|reflexivity].
  - destruct (IH p z0 u NX) as (y' & e & data & body & NL & NE & AS & SF & FB & NT). exists y', e, data, body. split; [exact NL|]. split; [exact NE|]. split; [exact AS|]. split; [exact SF|]. split; [exact FB|].
    unfold relay_place in *. cbn [firstn filter]. destruct (relay_gives x); cbn [length]; rewrite nth_error_app2 by lia; rewrite LE.
    + replace (Datatypes.S (length (filter relay_gives (firstn p xs))) - 1)%nat with (length (filter relay_gives (firstn p xs))) by lia. exact NT.
    + rewrite Nat.sub_0_r. exact NT.
Qed.
Lemma cared_back eview D2 view2 inv2 sched l s xs z outs w w' : codec_ok cd -> engine_ok cd E eview -> decoder_ok cd D2 view2 inv2 -> decoder_lively D2 ->
  Forall relay_good l -> len (s_data s) < 0x10000000000000000 -> careful cd D E k cfg heed l s (zw_new sched) = (xs, z, outs, w) -> zw_close w = (Ok tt, w') ->
  made cd (map settled outs) (w_bytes w) (w_zip64 w') (w_bytes w') /\
  (unambiguous cd cfg (map fst (map settled outs)) (map settled outs) (w_zip64 w') (w_bytes w') ->
   exists f2 es rest, mem_new cfg (w_bytes w') = Ok {| m_data := w_bytes w'; m_file := f2 |} /\ entries_here cd (past (s_pos s) (s_data s)) es rest /\
   (forall u, z = Some (Ok u) -> length xs = length es /\ exists b, rest = le 4 0x02014b50 ++ b) /\
   length (f_entries f2) = relay_place (length xs) xs /\
   forall p t u, nth_error xs p = Some (t, Relayed (Some (Ok u))) ->
   exists y e data body st it, nth_error l p = Some y /\ nth_error es p = Some (t, data) /\ rp_as y t = Some e /\ sum_fits heed (t, data) /\ fed_bytes body = data /\
     nth_error (f_entries f2) (relay_place p xs) = Some st /\ leaves cd false (OpStream false e body true) it /\ as_written (w_bytes w') it st /\ texts_kept it st /\
     forall ns s2, s_data s2 = w_bytes w' -> Forall (fun n => 0 < n) ns -> (delays (s_sched s2) + length data < length ns)%nat ->
      d_read_entry D2 ns f2 (N.of_nat (relay_place p xs)) s2 = Some (Ok data) \/
      exists c, In (RFail c) (s_sched s2) /\ d_read_entry D2 ns f2 (N.of_nat (relay_place p xs)) s2 = Some (Err (UpstreamReadError (IoOther c)))).
Proof.
  intros CK EO OK2 LV2 G LD R C. destruct (care_told l s (zw_new sched) xs z outs w G LD R) as (O & GO & es & rest & xs1 & xs2 & parts & lost & -> & -> & EH & RA & LO & ZE).
  pose proof (by_awaits cd E eview k sched _ _ w w' EO GO O C) as M. split; [exact M|]. intro U.
  destruct (made_back cd cfg (cursor (w_bytes w')) _ _ _ _ CK M U eq_refl (Forall_nil _)) as (f2 & _ & MN & _ & _ & FE & RD). exists f2, es, rest. split; [exact MN|]. split; [exact EH|].
  assert (SU : succeeded false (map settled (concat parts ++ lost)) = succeeded false (map settled (concat parts))).
  { rewrite map_app, streams_app; [|clear -RA; induction RA as [|y l z es x xs part parts A RA IH]; [constructor|]; cbn [concat]; rewrite map_app; apply Forall_app; split; [exact (proj1 (care_streams _ _ _ _ A))|exact IH]].
    assert (N : succeeded false (map settled lost) = []) by (destruct LO as [(_ & ->)|(x & _ & _ & LO)]; [reflexivity|now apply lost_none]). rewrite N. apply app_nil_r. }
  rewrite SU in *. assert (LX : length xs1 = length es) by (clear -RA; induction RA; cbn [length]; congruence).
  split; [intros u Z; destruct (ZE u Z) as (-> & B); rewrite app_nil_r; now split|].
  assert (NG : filter relay_gives xs2 = []) by (destruct LO as [(-> & _)|(x & -> & GX & _)]; [reflexivity|cbn [filter]; now rewrite GX]).
  split.
  { replace (length (f_entries f2)) with (length (succeeded false (map settled (concat parts)))) by (clear -FE; induction FE; cbn [length]; congruence). rewrite (cares_all _ _ _ _ RA).
    unfold relay_place. rewrite firstn_all, filter_app, NG, app_nil_r. reflexivity. }
  intros p t u NX. assert (PL : (p < length xs1)%nat).
  { destruct (Nat.lt_ge_cases p (length xs1)) as [L|L]; [exact L|]. exfalso. rewrite nth_error_app2 in NX by exact L. apply nth_error_In in NX.
    assert (I : In (t, Relayed (Some (Ok u))) (filter relay_gives xs2)) by (apply filter_In; now split). rewrite NG in I. destruct I. }
  rewrite nth_error_app1 in NX by exact PL. assert (RP : relay_place p (xs1 ++ xs2) = relay_place p xs1) by (unfold relay_place; rewrite firstn_app; replace (p - length xs1)%nat with 0%nat by lia; now rewrite firstn_O, app_nil_r).
  destruct (cares_at _ _ _ _ RA p t u NX) as (y & e & data & body & NL & NE & AS & SF & FB & NT). rewrite RP.
  assert (X : exists st, nth_error (f_entries f2) (relay_place p xs1) = Some st /\ exists it, leaves cd false (OpStream false e body true) it /\ as_written (w_bytes w') it st /\ texts_kept it st).
  { clear -FE NT. revert NT. generalize (relay_place p xs1) as m. induction FE as [|x st la lb (it & LI & AW & TK) FE IH]; intros m NT; [destruct m; discriminate NT|].
    destruct m as [|m]; [injection NT as ->; exists st; split; [reflexivity|]; now exists it|exact (IH m NT)]. }
  destruct X as (st & NS & it & LI & AW & TK). exists y, e, data, body, st, it. repeat (split; [assumption|]). intros ns s2 SD FN L.
  destruct (RD (N.of_nat (relay_place p xs1)) false _ data ltac:(rewrite Nat2N.id; exact NT) ltac:(rewrite <- FB; constructor) (not_exchanged cd e body false eq_refl)) as (RD1 & _).
  rewrite <- SD in RD1. exact (entry_or cd D2 view2 inv2 OK2 LV2 ns f2 (N.of_nat (relay_place p xs1)) s2 data FN RD1 L).
Qed.

(** nothing is copied that a few changed bytes in a row made of what the header tells of *)
Lemma care_marred l s w0 xs z outs w : Forall relay_good l -> len (s_data s) < 0x10000000000000000 -> careful cd D E k cfg heed l s w0 = (xs, z, outs, w) ->
  exists es rest, entries_here cd (past (s_pos s) (s_data s)) es rest /\ forall p t u, nth_error xs p = Some (t, Relayed (Some (Ok u))) ->
  exists data, nth_error es p = Some (t, data) /\
    (heed t = true -> forall a x y b, data = a ++ x ++ b -> length x = length y -> (length x <= 4)%nat -> x <> y -> crc32_spec (a ++ y ++ b) <> en_crc32 t).
Proof.
  intros G LD R. destruct (care_told l s w0 xs z outs w G LD R) as (_ & _ & es & rest & xs1 & xs2 & parts & lost & -> & _ & EH & RA & LO & _). exists es, rest. split; [exact EH|]. intros p t u NX.
  destruct (Nat.lt_ge_cases p (length xs1)) as [L|L].
  - rewrite nth_error_app1 in NX by exact L. destruct (cares_at _ _ _ _ RA p t u NX) as (y & e & data & body & _ & NE & _ & SF & _). exists data. split; [exact NE|].
    intros H a x x' b -> LE L4 NX'. unfold sum_fits in SF. cbn [fst snd] in SF. rewrite <- (SF H). intro Q. symmetry in Q. rewrite <- !crc32_is_spec in Q. exact (crc_burst a x x' b LE L4 NX' Q).
  - exfalso. rewrite nth_error_app2 in NX by exact L. apply nth_error_In in NX. destruct LO as [(-> & _)|(x & -> & GX & _)]; [destruct NX|]. destruct NX as [->|[]]. discriminate GX.
Qed.

(** ** Nothing stays on the way *)
Context (LV : decoder_lively D).
(** the source does not feel it *)
Lemma same_source y rd w : snd (fst (fst (careful_one cd D E k heed y rd w))) = snd (fst (fst (relay_one cd D E k y rd w))).
Proof.
  unfold careful_one, relay_one. cbv zeta. destruct (rp_as y (rd_entry rd)) as [e|]; [|reflexivity]. destruct (stream_open cd false e w) as [[sw|x|x] w1]; [|reflexivity..].
  destruct (pipe (rp_buffers y) _ _ w1) as [[[x r'] c] w2]. destruct x as [o|z|z]; [|reflexivity..]. cbv beta iota zeta delta [dr_compute_hash]. rewrite done_hash.
  destruct (dr_done (rp_patience y) (rd_descriptor rd) r') as [[s'|z|z]|]; [|reflexivity..]. destruct (shut cd E k o w2) as [z w3]. now destruct (negb (heed (rd_entry rd)) || (hasher_finalize (dr_hash r') =? en_crc32 (rd_entry rd))).
Qed.
Lemma care_answers y rd w s1 z out j m : rd_entry rd = z ->
  rd_reader rd = er_new s1 (en_compression z) (if en_data_descriptor z then 0xFFFFFFFFFFFFFFFF else en_compressed_size z) -> len (s_data s1) < 0x10000000000000000 ->
  decoded cd (en_compression z) (data_of z (past (s_pos s1) (s_data s1))) = (out, true) -> entry_span cd (en_compression z) (data_of z (past (s_pos s1) (s_data s1))) = Some j ->
  Forall (fun n => 0 < n) (rp_buffers y) -> (delays (s_sched s1) <= m)%nat -> relay_patient m (z, out) y ->
  let '(_, t, _, _) := careful_one cd D E k heed y rd w in
  exists q, t = Some q /\ (faulty s1 q \/ exists s', later s1 s' /\ s_pos s' = s_pos s1 + j /\ q = after_entry (rd_descriptor rd) s').
Proof.
  intros RZ RR LD DE SP FB LM PT. pose proof (one_answers cd D view inv OK E k LV y rd w s1 z out j m RZ RR LD DE SP FB LM PT) as H. pose proof (same_source y rd w) as S.
  destruct (relay_one cd D E k y rd w) as [[[x t] o] w1], (careful_one cd D E k heed y rd w) as [[[x' t'] o'] w1']. cbn [fst snd] in S. now subst t'.
Qed.
Lemma care_arrives d : len d < 0x10000000000000000 -> forall t es, goes cd t es -> forall m l s w, s_data s = d -> past (s_pos s) d = t -> Forall relay_good l ->
  (delays (s_sched s) <= m)%nat -> (length es < length l)%nat -> Forall2 (relay_patient m) es (firstn (length es) l) ->
  let '(xs, z, _, _) := careful cd D E k cfg heed l s w in z = Some (Ok tt) \/ exists r, z = Some r /\ faulty s r.
Proof.
  intros LD t es G. induction G as [t|t tp m0 z out j tail es R T Rd DE SP B G IH]; intros m l s w DS P GD LM LL TH; (destruct l as [|y l]; [cbn [length] in LL; lia|]); cbn [careful].
  - pose proof (next_any cfg s) as NX. destruct (next_ends cfg (calm s)) as (s' & N0); [constructor|..].
    { exists (firstn (N.to_nat (s_pos s)) (s_data s)), t. cbn [calm s_data s_pos]. subst d. rewrite <- P. unfold past. rewrite firstn_skipn. split; [reflexivity|].
      apply (f_equal len) in P. rewrite len_past, len_app in P. change (len (le 4 0x02014b50)) with 4 in P.
      rewrite <- take_firstn, len_take. change (s_pos (calm s)) with (s_pos s). lia. }
    rewrite N0 in NX. destruct (stream_next cfg s) as [r s1]. destruct NX as [(c & I & ->)|(_ & _ & NX)]; [right; eexists; split; [reflexivity|]; now exists c|].
    destruct r as [[rd|]|e|p]; [destruct NX as (? & X & _); discriminate X| |discriminate NX|discriminate NX]. now left.
  - subst d. pose proof (next_any cfg s) as NX. rewrite <- P in R. destruct (next_takes cfg (calm s) tp m0 z (Forall_nil _) R T Rd) as (rd0 & s0 & N0 & RE & M).
    rewrite N0 in NX. destruct (stream_next cfg s) as [r s1] eqn:NE. destruct NX as [(c & I & ->)|(LA & S0 & NX)]; [right; eexists; split; [reflexivity|]; now exists c|].
    destruct r as [[rd|]|e|p]; [|discriminate NX..]. destruct NX as (rd1 & X & E1 & E2 & _). injection X as <-.
    pose proof (next_reads _ _ _ _ NE) as (D1 & _ & _ & _ & _ & RD & RR).
    assert (Z : rd_entry rd = z) by congruence. subst s0. change (past (s_pos s1) (s_data s1) = m0) in M. rewrite Z in RR.
    cbn [length firstn] in LL, TH. apply both_cons in TH as [TY TH]. apply Forall_cons_iff in GD as [GY GD].
    pose proof (care_answers y rd w s1 z out j m Z RR ltac:(now rewrite D1) ltac:(now rewrite M) ltac:(now rewrite M) (proj1 GY) ltac:(pose proof (later_length _ _ LA); lia) TY) as OA.
    destruct (careful_one cd D E k heed y rd w) as [[[x q0] o] w1]. destruct OA as (q & -> & OA). rewrite D1 in M.
    destruct OA as [F|(s' & LB & PS & ->)]; [destruct F as (c & I & ->); right; eexists; split; [reflexivity|]; destruct LA as (_ & u & U); exists c; split; [rewrite U; apply in_or_app; now right|reflexivity]|].
    pose proof (later_trans _ _ _ LA LB) as LF. destruct LF as (D5 & LF2). rewrite RD, Z.
    assert (B' : behind (en_data_descriptor z) (past (s_pos s1 + j) (s_data s)) tail) by (rewrite past_drop, <- drop_drop, <- past_drop, <- past_drop, M; exact B).
    assert (ST : stands (calm s') (s_data s) (s_pos s1 + j)) by (repeat split; [exact D5|exact PS|constructor]).
    destruct (after_behind _ _ _ _ _ ST B') as (s2c & AC & S2 & P2).
    destruct (after_any (en_data_descriptor z) s') as [(c & I & ->)|(A1 & A2 & A3)].
    { right. eexists. split; [reflexivity|]. destruct LF2 as (u & U). exists c. split; [rewrite U; apply in_or_app; now right|reflexivity]. }
    destruct (after_entry (en_data_descriptor z) s') as [s2|e|e]; [|specialize (A1 e eq_refl); congruence|specialize (A2 e eq_refl); congruence].
    destruct (A3 s2 eq_refl) as (LG & AC'). rewrite AC in AC'. injection AC' as ->. cbn [calm s_pos] in P2.
    assert (LH : later s s2) by (exact (later_trans _ _ _ (conj D5 LF2) LG)). pose proof (later_length _ _ LH) as LHL.
    specialize (IH m l s2 w1 (proj1 LH) P2 GD ltac:(lia) ltac:(lia) TH). destruct (careful cd D E k cfg heed l s2 w1) as [[[xs o'] os] w2].
    destruct IH as [->|(q & -> & FQ)]; [now left|right; exists q; split; [reflexivity|exact (faulty_later _ _ _ LH FQ)]].
Qed.
(** whatever the sink does, the stream is gone through, or its fault is told *)
Lemma care_ends l s w0 xs z outs w es : Forall relay_good l -> len (s_data s) < 0x10000000000000000 -> goes cd (past (s_pos s) (s_data s)) es -> (length es < length l)%nat ->
  Forall2 (relay_patient (delays (s_sched s))) es (firstn (length es) l) -> careful cd D E k cfg heed l s w0 = (xs, z, outs, w) ->
  z = Some (Ok tt) /\ (exists parts, outs = concat parts /\ cares_as heed l es xs parts) \/ exists c, In (RFail c) (s_sched s) /\ z = Some (Err (UpstreamReadError (IoOther c))).
Proof.
  intros G LD GO LL PT R. pose proof (care_arrives (s_data s) LD _ es GO _ l s w0 eq_refl eq_refl G (le_n _) LL PT) as H. rewrite R in H.
  destruct H as [->|(r & -> & c & I & ->)]; [|right; exists c; now split]. left. split; [reflexivity|].
  destruct (care_told l s w0 xs _ outs w G LD R) as (_ & _ & es' & rest & xs1 & xs2 & parts & lost & -> & -> & EH & RA & LO & ZE).
  destruct (ZE tt eq_refl) as (-> & b & RB). pose proof (here_goes cd _ _ _ _ EH RB) as GO'.
  assert (LP : len (past (s_pos s) (s_data s)) < 0x10000000000000000) by (rewrite len_past; lia).
  rewrite (goes_unique cd _ es es' LP GO GO'). exists parts. rewrite app_nil_r. split; [|exact RA]. destruct LO as [(_ & ->)|(x & X & _)]; [apply app_nil_r|discriminate X].
Qed.

(** ** Whose fault it is *)
Lemma care_handy l es xs parts : cares_as heed l es xs parts -> Forall relay_handy l -> Forall op_good (map fst (concat parts)) -> Forall handy (map fst (concat parts)).
Proof.
  induction 1 as [|y l z es x xs part parts (_ & A) RA IH]; intros HA G; [constructor|]. apply Forall_cons_iff in HA as [H1 HA]. cbn [concat] in *. rewrite map_app in *. apply Forall_app in G as [G1 G2].
  apply Forall_app. split; [|exact (IH HA G2)]. destruct (rp_as y (fst z)) as [e|] eqn:AS.
  - destruct (H1 _ _ AS) as (ND & RM). assert (S : exists body closed r, part = [(OpStream false e body closed, r)]).
    { destruct (snd x) as [|r|r|]; [destruct A| | |]; [destruct A as (_ & body & _ & ->); now exists body, true, r|destruct A as (_ & body & closed & _ & ->); now exists body, closed, r|destruct A as (_ & body & _ & ->); eexists body, false, _; reflexivity]. }
    destruct S as (body & closed & r & ->). cbn [map fst] in *. apply Forall_cons_iff in G1 as [G1 _]. constructor; [|constructor]. split; [discriminate|]. split; [exact G1|]. split; [exact ND|exact RM].
  - destruct (snd x) as [|r|r|]; [subst part; constructor|destruct A..].
Qed.
Lemma care_parts l es xs parts sched : cares_as heed l es xs parts -> Forall (fun x => ended_by k sched (fst x) (snd x)) (concat parts) -> Forall2 (relay_blamed k sched) es xs.
Proof.
  induction 1 as [|y l z es x xs part parts (_ & A) RA IH]; intro B; [constructor|]. cbn [concat] in B. apply Forall_app in B as [B1 B2]. constructor; [|exact (IH B2)]. unfold relay_blamed.
  assert (ONE : forall e body closed r, (length (fed_bytes body) <= length (snd z))%nat -> part = [(OpStream false e body closed, r)] ->
    match r with Some (Err e) => (exists io, e = UpstreamReadError io) /\ ~ obliging sched | Some (Panic _) => False | None => (k <= SpecLively.waits sched + length (snd z))%nat | Some (Ok _) => True end).
  { intros e body closed r L ->. apply Forall_cons_iff in B1 as [B1 _]. cbn [fst snd] in B1. destruct r as [[u|q|q]|]; [exact I|exact B1|exact B1|]. cbn [ended_by] in B1.
    destruct (Nat.le_gt_cases k (SpecLively.waits sched + length (snd z))) as [LE|GT]; [exact LE|]. elim B1. eapply fed_patient; [exact L|exact GT]. }
  destruct (rp_as y (fst z)) as [e|]; destruct (snd x) as [|r|r|]; [exact I| | |exact I|exact I|destruct A..].
  - destruct A as (_ & body & FB & EP). specialize (ONE e body true r ltac:(now rewrite FB) EP). destruct r as [[u|q|q]|]; exact ONE.
  - destruct A as (_ & body & closed & PX & EP). specialize (ONE e body closed r ltac:(eapply prefix_length; eassumption) EP). destruct r as [[u|q|q]|]; exact ONE.
Qed.
Lemma care_blames eview sched l s xs z outs w : enc_takes cd -> engine_ok cd E eview -> SpecLively.engine_lively cd E eview ->
  Forall relay_good l -> Forall relay_handy l -> len (s_data s) < 0x10000000000000000 -> careful cd D E k cfg heed l s (zw_new sched) = (xs, z, outs, w) ->
  exists es rest xs1 xs2, xs = xs1 ++ xs2 /\ entries_here cd (past (s_pos s) (s_data s)) es rest /\ Forall2 (relay_blamed k sched) es xs1 /\
    (xs2 = [] \/ exists x, xs2 = [x] /\ relay_gives x = false) /\ (forall u, z = Some (Ok u) -> xs2 = []).
Proof.
  intros ET EO EL G HA LD R. destruct (care_told l s _ xs z outs w G LD R) as (O & GO & es & rest & xs1 & xs2 & parts & lost & -> & -> & EH & RA & LO & ZE).
  exists es, rest, xs1, xs2. split; [reflexivity|]. split; [exact EH|]. rewrite map_app in O. destruct (ops_prefix cd E k _ _ _ _ _ _ O ltac:(now rewrite map_length)) as (w1 & O1).
  rewrite map_app in GO. apply Forall_app in GO as [GO _]. pose proof (care_handy _ _ _ _ RA HA GO) as HP.
  pose proof (BlameProofs.all_blamed cd E eview k ET EO EL _ HP (zw_new sched) [] sched eq_refl eq_refl) as B. rewrite O1 in B.
  split; [exact (care_parts _ _ _ _ sched RA B)|]. split; [destruct LO as [(-> & _)|(x & -> & GX & _)]; [now left|right; now exists x]|]. intros u Z. exact (proj1 (ZE u Z)).
Qed.
Lemma care_done eview sched l s xs z outs w es : enc_takes cd -> engine_ok cd E eview -> SpecLively.engine_lively cd E eview ->
  Forall relay_good l -> Forall relay_handy l -> len (s_data s) < 0x10000000000000000 -> goes cd (past (s_pos s) (s_data s)) es -> (length es < length l)%nat ->
  Forall2 (relay_patient (delays (s_sched s))) es (firstn (length es) l) -> nofail (s_sched s) -> obliging sched -> Forall (fun x => (SpecLively.waits sched + length (snd x) < k)%nat) es ->
  careful cd D E k cfg heed l s (zw_new sched) = (xs, z, outs, w) -> xs = care_ideal heed es l /\ z = Some (Ok tt) /\ fst (zw_close w) = Ok tt.
Proof.
  intros ET EO EL G HA LD GS LL PT NF OB KB R. destruct (care_ends l s _ xs z outs w es G LD GS LL PT R) as [(ZE & parts & EQ & RA)|(c & I & _)].
  2: { unfold nofail in NF. rewrite Forall_forall in NF. specialize (NF _ I). discriminate NF. }
  destruct (care_told l s _ xs z outs w G LD R) as (O & GO & _). subst outs. pose proof (care_handy _ _ _ _ RA HA GO) as HP.
  assert (PA : Forall (SpecLively.patient k sched) (map fst (concat parts))).
  { clear -RA KB. revert KB. induction RA as [|y l z es x xs part parts (_ & A) RA IH]; intro KB; [constructor|]. apply Forall_cons_iff in KB as [K1 KB]. cbn [concat]. rewrite map_app. apply Forall_app.
    split; [|exact (IH KB)]. destruct (rp_as y (fst z)) as [e|]; destruct (snd x) as [|r|r|]; [destruct A| | | | |destruct A..].
    - destruct A as (_ & body & FB & ->). constructor; [|constructor]. eapply fed_patient; [|exact K1]. now rewrite FB.
    - destruct A as (_ & body & closed & PX & ->). constructor; [|constructor]. eapply fed_patient; [|exact K1]. eapply prefix_length; eassumption.
    - destruct A as (_ & body & FB & ->). constructor; [|constructor]. eapply fed_patient; [|exact K1]. now rewrite FB.
    - subst part. constructor. }
  destruct (all_awaited cd E eview k ET EO EL _ HP (zw_new sched) PA eq_refl OB) as (w1 & AW & CH). rewrite O in AW. injection AW as EO1 <-.
  split; [|split; [exact ZE|]].
  - assert (OO : Forall (fun x => snd x = Some (Ok tt)) (concat parts)) by (rewrite EO1; apply Forall_map; apply Forall_forall; reflexivity).
    clear -RA OO. revert OO. induction RA as [|y l z es x xs part parts (FX & A) RA IH]; intro OO; [reflexivity|]. cbn [concat] in OO. apply Forall_app in OO as [O1 O2]. cbn [care_ideal]. f_equal; [|exact (IH O2)].
    unfold care_well. destruct x as [x1 x2]. cbn [fst snd] in *. subst x1. destruct (rp_as y (fst z)) as [e|]; destruct x2 as [|r|r|]; [destruct A| | | |reflexivity|destruct A..].
    + destruct A as (SF & body & _ & ->). apply Forall_cons_iff in O1 as [O1 _]. cbn [snd] in O1. subst r. unfold sum_fits in SF. destruct (heed (fst z)); [rewrite (SF eq_refl), N.eqb_refl|]; reflexivity.
    + destruct A as (NY & body & closed & _ & ->). apply Forall_cons_iff in O1 as [O1 _]. cbn [snd] in O1. now elim (NY tt).
    + destruct A as ((S1 & S2) & _). rewrite S1. apply N.eqb_neq in S2. now rewrite S2.
  - apply close_works.
    + exact (ChainFacts.chain_short _ _ _ _ CH ltac:(constructor)).
    + rewrite (ChainFacts.chain_force _ _ _ _ CH), map_map. cbn [fst]. rewrite map_id. now apply handy_not_no.
    + destruct (ChainFacts.chain_evol _ _ _ _ CH) as (_ & _ & _ & (u & U)). change (WriterFacts.w_sched (zw_new sched)) with sched in U. rewrite U in OB. now apply obliging_app in OB.
Qed.
End Cared.

(** a caller that heeds no header is the one of Relay.v *)
Lemma careless_one cd D (E : engine cd) k y rd w : careful_one cd D E k (fun _ => false) y rd w = relay_one cd D E k y rd w.
Proof.
  unfold careful_one, relay_one. cbv zeta. destruct (rp_as y (rd_entry rd)) as [e|]; [|reflexivity]. destruct (stream_open cd false e w) as [[sw|x|x] w1]; [|reflexivity..].
  destruct (pipe cd D E k (rp_buffers y) _ _ w1) as [[[x r'] c] w2]. destruct x as [o|z|z]; [|reflexivity..]. cbv beta iota zeta delta [dr_compute_hash negb orb]. rewrite done_hash. reflexivity.
Qed.
Lemma careless cd D (E : engine cd) k cfg l : forall s w, careful cd D E k cfg (fun _ => false) l s w = relay cd D E k cfg l s w.
Proof.
  induction l as [|y l IH]; intros s w; cbn [careful relay]; [reflexivity|]. destruct (stream_next cfg s) as [[[rd|]|e|e] s1]; [|reflexivity..]. rewrite careless_one.
  destruct (relay_one cd D E k y rd w) as [[[x t] o] w1]. destruct t as [[s'|e|e]|]; [|reflexivity..]. now rewrite IH.
Qed.
