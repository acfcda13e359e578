(** Proofs: entries copied from a stream while it arrives. *)
From Verif Require Import Base BaseFacts Crc32 SpecFormat SpecCrc SpecArchive SpecRead SpecWrite SpecBlame SpecMade SpecExact SpecThrough SpecStream SpecSalvage SpecRemains ZString ZDate Headers ExtraField Entry IO IOFacts Reader
  EntryReader StreamReader Writer StreamPolls EncoderPolls AwaitedWrites SpecEncoder SpecLively SpecOrdinary LivelyProofs BlameProofs MadeProofs ReaderPolls SpecReadPolls DecoderPolls SpecDecoder DecoderProofs
  DecoderWalk SpecWalk DecoderWalkProofs ReadPollProofs SpecStrict ReaderFacts LfhFacts EntryProofs ReadProofs StreamProofs RoundTrip StreamWalk FrontProofs StrictProofs ExactProofs ExactTop ThroughProofs FaultWalkProofs SpecAwake AwakeProofs SpecEndure EndureProofs RemainsProofs MadeRead Piped PipedProofs Relay SpecRelay.
Import Writer SpecReadPolls DecoderProofs FaultWalkProofs AwakeProofs.
Arguments N.add : simpl never.

Section Relayed.
Context (cd : codec) (D : decoder) (view : dg_state D -> compression * bytes * bytes) (inv : dg_state D -> bytes -> Prop) (OK : decoder_ok cd D view inv).
Context (E : engine cd) (k : nat) (cfg : config).
Notation midway := (midway cd D view inv).
Notation pipe := (pipe cd D E k).
Notation outlet := (outlet cd E).

(** ** The polls a pipe makes *)
Lemma pipe_polls : forall ns r (o : outlet) w, Forall (fun n => 0 < n) ns -> let '(x, r', c, _) := pipe ns r o w in
  exists l ps, dr_polls l r = (ps, r') /\ told ps = concat c /\
  match x with
  | Ended _ => Exists at_end ps /\ ~ Exists found_bad ps
  | ReaderEnds _ => True
  | WriterEnds _ => ~ Exists found_bad ps
  end.
Proof.
  assert (NB : forall c p ps, (forall e, p <> RErr e) -> ~ Exists found_bad ps -> ~ Exists found_bad ((c, p) :: ps)).
  { intros c p ps N1 N2 X. inversion X as [? ? X1|? ? X1]; subst; [|now apply N2]. unfold found_bad in X1. cbn [snd] in X1. destruct p as [|b|e]; [destruct X1|destruct X1|now elim (N1 e)]. }
  assert (N0 : ~ Exists found_bad (@nil (read_call * rpoll))) by (intro X; inversion X).
  induction ns as [|n ns IH]; intros r o w F; cbn [Piped.pipe]; [exists [], []; now repeat split|]. apply Forall_cons_iff in F as [F1 F].
  assert (ONE : forall p r1, dr_poll_read n r = (p, r1) -> dr_polls [PollRead n] r = ([(PollRead n, p)], r1)) by (intros p r1 Q; cbn [dr_polls dr_poll]; now rewrite Q).
  destruct (dr_poll_read n r) as [[|b|e] r1] eqn:DP.
  - specialize (IH r1 o w F). destruct (pipe ns r1 o w) as [[[x r2] c] w2]. destruct IH as (l & ps & P & T & X). exists (PollRead n :: l), ((PollRead n, RPend) :: ps).
    cbn [dr_polls dr_poll]. rewrite DP, P. split; [reflexivity|]. split; [exact T|].
    destruct x; [destruct X as [X1 X2]; split; [now right|apply NB; [discriminate|exact X2]]|exact I|apply NB; [discriminate|exact X]].
  - destruct b as [|y b].
    + exists [PollRead n], [(PollRead n, RGot [])]. split; [now apply ONE|]. split; [reflexivity|]. split; [left; now split|apply NB; [discriminate|exact N0]].
    + destruct (pour cd E k (y :: b) o w) as [[o'|z] w1].
      * specialize (IH r1 o' w1 F). destruct (pipe ns r1 o' w1) as [[[x r2] c] w2]. destruct IH as (l & ps & P & T & X). exists (PollRead n :: l), ((PollRead n, RGot (y :: b)) :: ps).
        cbn [dr_polls dr_poll]. rewrite DP, P. split; [reflexivity|]. split; [unfold told in *; cbn [map concat snd]; now rewrite T|].
        destruct x; [destruct X as [X1 X2]; split; [now right|apply NB; [discriminate|exact X2]]|exact I|apply NB; [discriminate|exact X]].
      * exists [PollRead n], [(PollRead n, RGot (y :: b))]. split; [now apply ONE|]. split; [reflexivity|]. apply NB; [discriminate|exact N0].
  - exists [PollRead n], [(PollRead n, RErr e)]. split; [now apply ONE|]. split; [reflexivity|exact I].
Qed.
Lemma pipe_sized p0 c0 W : forall ns r (o : outlet) w out, midway p0 c0 W r out -> let '(_, _, c, _) := pipe ns r o w in len (concat c) <= fold_right N.add 0 ns.
Proof.
  induction ns as [|n ns IH]; intros r o w out M; cbn [Piped.pipe fold_right]; [unfold len; cbn; lia|].
  pose proof (poll_midway cd D view inv OK p0 c0 W r out n M) as P. destruct (dr_poll_read n r) as [[|b|e] r1]; destruct P as (_ & _ & P).
  - specialize (IH r1 o w out P). destruct (pipe ns r1 o w) as [[[x r2] c] w2]. lia.
  - destruct P as (L & P & _). destruct b as [|y b]; [unfold len; cbn [concat length]; lia|]. destruct (pour cd E k (y :: b) o w) as [[o'|z] w1].
    + specialize (IH r1 o' w1 _ P). destruct (pipe ns r1 o' w1) as [[[x r2] c] w2]. cbn [concat]. unfold len in *. rewrite app_length. lia.
    + cbn [concat]. rewrite app_nil_r. lia.
  - unfold len; cbn [concat length]; lia.
Qed.

(** ** One entry *)
(** what is known of an entry by what the walk says of it *)
Definition link (y : relay_plan) (v : stayed) (x : zentry * relayed) (part : list (wop * option (res unit))) : Prop :=
  fst x = sd_entry v /\
  match sd_left v with
  | Some done =>
    match rp_as y (sd_entry v), snd x with
    | None, PassedBy => part = []
    | Some e, Relayed r => done = true /\ exists body, fed_bytes body = told (sd_polls v) /\ part = [(OpStream false e body true, r)]
    | Some e, CutOff r => (forall u, r <> Some (Ok u)) /\ exists body closed, fed_bytes body = told (sd_polls v) /\ part = [(OpStream false e body closed, r)]
    | _, _ => False
    end
  | None => relay_lost part /\ relay_gives x = false
  end.
Lemma one_ends y rd w : relay_good y -> let '(x, t, o, w') := relay_one cd D E k y rd w in
  awaited_ops cd E k (map fst o) w = (o, w') /\ Forall op_good (map fst o) /\
  exists st, let '(ps, r') := dr_polls (sy_polls st) (dr_new D (er_src (rd_reader rd)) (er_comp (rd_reader rd)) (er_limit (rd_reader rd))) in
    let q := (if sy_done st then dr_done else dr_skip) (sy_patience st) (rd_descriptor rd) r' in
    let v left := {| sd_entry := rd_entry rd; sd_polls := ps; sd_left := left |} in
    match t with
    | Some (Ok s') => q = Some (Ok s') /\ ~ Exists found_bad ps /\ link y (v (Some (sy_done st))) (rd_entry rd, x) o
    | _ => (forall s', q <> Some (Ok s')) /\ link y (v None) (rd_entry rd, x) o
    end.
Proof.
  intros (F & SZ & EF). unfold relay_one. set (r0 := dr_new D (er_src (rd_reader rd)) (er_comp (rd_reader rd)) (er_limit (rd_reader rd))).
  assert (N0 : ~ Exists found_bad (@nil (read_call * rpoll))) by (intro X; inversion X).
  destruct (rp_as y (rd_entry rd)) as [e|] eqn:AS.
  2: { split; [reflexivity|]. split; [constructor|]. exists {| sy_polls := []; sy_done := false; sy_patience := rp_patience y |}. cbn [sy_polls sy_done sy_patience dr_polls].
       destruct (dr_skip (rp_patience y) (rd_descriptor rd) r0) as [[s'|x|x]|].
       1: split; [reflexivity|]; split; [exact N0|]; split; [reflexivity|]; cbn [sd_left sd_entry snd]; now rewrite AS.
       all: split; [intro; discriminate|]; split; [reflexivity|]; split; [now left|reflexivity]. }
  specialize (EF _ _ AS).
  assert (GOOD : forall body closed, len (fed_bytes body) < 0x10000000000000000 -> op_good (OpStream false e body closed)) by (intros body closed L; now split).
  destruct (stream_open cd false e w) as [[sw|x|x] w1] eqn:SO.
  2,3: (split; [cbn [map fst]; rewrite (one_op cd E k (OpStream false e (map SWriteAll []) true)); unfold awaited_op, run_op, bind; rewrite SO; reflexivity|];
    split; [constructor; [now apply GOOD|constructor]|]; exists {| sy_polls := []; sy_done := false; sy_patience := rp_patience y |}; cbn [sy_polls sy_done sy_patience dr_polls];
    destruct (dr_skip (rp_patience y) (rd_descriptor rd) r0) as [[s'|z|z]|];
    [split; [reflexivity|]; split; [exact N0|]; split; [reflexivity|]; cbn [sd_left sd_entry snd]; rewrite AS; split; [intro; discriminate|]; exists [], true; split; reflexivity
    |split; [intro; discriminate|]; split; [reflexivity|]; split; [right; exists e, [], true; eexists; split; [reflexivity|right; intro; discriminate]|reflexivity]..]).
  change (sw, match sw_enc sw with Some st => Some (eg_new E st) | None => None end) with (outlet_of cd E sw).
  pose proof (pipe_polls (rp_buffers y) r0 (outlet_of cd E sw) w1 F) as PP. pose proof (pipe_writer cd D E k (rp_buffers y) r0 (outlet_of cd E sw) w1) as PW.
  pose proof (pipe_sized _ _ _ (rp_buffers y) r0 (outlet_of cd E sw) w1 _ (midway_new cd D view inv OK (er_src (rd_reader rd)) (er_comp (rd_reader rd)) (er_limit (rd_reader rd)))) as PZ.
  destruct (pipe (rp_buffers y) r0 (outlet_of cd E sw) w1) as [[[x r'] c] w2]. destruct PP as (l & ps & P & T & X).
  assert (LC : len (fed_bytes (map SWriteAll c)) < 0x10000000000000000) by (rewrite fed_map; lia).
  assert (FT : fed_bytes (map SWriteAll c) = told ps) by (rewrite fed_map; now symmetry).
  destruct x as [o|z|z].
  - destruct (poured_shut cd E k _ _ _ _ _ _ _ SO PW) as (W1 & W2). destruct X as (AE & NB).
    destruct (dr_done (rp_patience y) (rd_descriptor rd) r') as [[s'|z|z]|] eqn:DN.
    2-4: (split; [cbn [map fst]; rewrite one_op, W2; reflexivity|]; split; [constructor; [now apply GOOD|constructor]|];
      exists {| sy_polls := l; sy_done := true; sy_patience := rp_patience y |}; cbn [sy_polls sy_done sy_patience]; rewrite P; cbv zeta; rewrite DN;
      split; [intro; discriminate|]; split; [reflexivity|]; split; [right; exists e, (map SWriteAll c), false; eexists; split; [reflexivity|now left]|reflexivity]).
    destruct (shut cd E k o w2) as [z w3] eqn:SH.
    split; [cbn [map fst]; rewrite one_op, W1; reflexivity|]. split; [constructor; [now apply GOOD|constructor]|].
    exists {| sy_polls := l; sy_done := true; sy_patience := rp_patience y |}. cbn [sy_polls sy_done sy_patience]. rewrite P. cbv zeta. split; [exact DN|]. split; [exact NB|]. split; [reflexivity|].
    cbn [sd_left sd_entry snd]. rewrite AS. split; [reflexivity|]. exists (map SWriteAll c). split; [exact FT|reflexivity].
  - destruct PW as (o & PW). destruct (poured_shut cd E k _ _ _ _ _ _ _ SO PW) as (_ & W2).
    assert (G : exists st, let '(ps, r') := dr_polls (sy_polls st) r0 in
      (forall s', (if sy_done st then dr_done else dr_skip) (sy_patience st) (rd_descriptor rd) r' <> Some (Ok s')) /\
      link y {| sd_entry := rd_entry rd; sd_polls := ps; sd_left := None |} (rd_entry rd, Torn) [(OpStream false e (map SWriteAll c) false, Some (Ok tt))]).
    { exists {| sy_polls := l; sy_done := true; sy_patience := 0 |}. cbn [sy_polls sy_done sy_patience]. rewrite P. split; [intros s' Q; discriminate Q|].
      split; [reflexivity|]. split; [right; exists e, (map SWriteAll c), false; eexists; split; [reflexivity|now left]|reflexivity]. }
    split; [cbn [map fst]; rewrite one_op, W2; reflexivity|]. split; [constructor; [now apply GOOD|constructor]|].
    destruct z as [[u|z|z]|]; exact G.
  - destruct (poured_failed cd E k _ _ _ _ _ _ _ SO PW) as (NY & W2).
    split; [cbn [map fst]; rewrite one_op, W2; reflexivity|]. split; [constructor; [now apply GOOD|constructor]|].
    exists {| sy_polls := l; sy_done := false; sy_patience := rp_patience y |}. cbn [sy_polls sy_done sy_patience]. rewrite P. cbv zeta.
    destruct (dr_skip (rp_patience y) (rd_descriptor rd) r') as [[s'|q|q]|].
    1: split; [reflexivity|]; split; [exact X|]; split; [reflexivity|]; cbn [sd_left sd_entry snd]; rewrite AS; split; [exact NY|]; exists (map SWriteAll c), false; split; [exact FT|reflexivity].
    all: split; [intro; discriminate|]; split; [reflexivity|]; split; [right; exists e, (map SWriteAll c), false; eexists; split; [reflexivity|now left]|reflexivity].
Qed.

(** ** All of them *)
Inductive linked : list relay_plan -> list stayed -> list (zentry * relayed) -> list (list (wop * option (res unit))) -> Prop :=
| lk_none l : linked l [] [] []
| lk_entry y l v vs x xs part parts : link y v x part -> linked l vs xs parts -> linked (y :: l) (v :: vs) (x :: xs) (part :: parts).
Lemma relay_walks l : Forall relay_good l -> forall s w, let '(xs, z, outs, w') := relay cd D E k cfg l s w in
  awaited_ops cd E k (map fst outs) w = (outs, w') /\ Forall op_good (map fst outs) /\
  exists l' ys z' parts, d_walk D cfg l' s = (ys, z') /\ Forall heeds ys /\ (forall u, z = Some (Ok u) -> z' = Some (Ok u)) /\ outs = concat parts /\ linked l ys xs parts.
Proof.
  induction l as [|y l IH]; intros G s w; cbn [relay].
  { split; [reflexivity|]. split; [constructor|]. exists [], [], None, []. split; [reflexivity|]. split; [constructor|]. split; [discriminate|]. split; [reflexivity|constructor]. }
  apply Forall_cons_iff in G as [G1 G]. set (st0 := {| sy_polls := []; sy_done := false; sy_patience := 0 |}).
  destruct (stream_next cfg s) as [[[rd|]|e|e] s1] eqn:NX.
  2: { split; [reflexivity|]. split; [constructor|]. exists [st0], [], (Some (Ok tt)), []. cbn [d_walk]. rewrite NX. split; [reflexivity|]. split; [constructor|]. split; [now intros []|]. split; [reflexivity|constructor]. }
  2: { split; [reflexivity|]. split; [constructor|]. exists [st0], [], (Some (Err e)), []. cbn [d_walk]. rewrite NX. split; [reflexivity|]. split; [constructor|]. split; [now intros []|]. split; [reflexivity|constructor]. }
  2: { split; [reflexivity|]. split; [constructor|]. exists [st0], [], (Some (Panic e)), []. cbn [d_walk]. rewrite NX. split; [reflexivity|]. split; [constructor|]. split; [now intros []|]. split; [reflexivity|constructor]. }
  pose proof (one_ends y rd w G1) as H. destruct (relay_one cd D E k y rd w) as [[[x t] o] w1]. destruct H as (A & GO & st & H).
  destruct (dr_polls (sy_polls st) (dr_new D (er_src (rd_reader rd)) (er_comp (rd_reader rd)) (er_limit (rd_reader rd)))) as [ps r'] eqn:DP. cbv zeta in H.
  assert (LAST : forall z : option (res unit), (forall u, z <> Some (Ok u)) ->
    (forall s', (if sy_done st then dr_done else dr_skip) (sy_patience st) (rd_descriptor rd) r' <> Some (Ok s')) /\ link y {| sd_entry := rd_entry rd; sd_polls := ps; sd_left := None |} (rd_entry rd, x) o ->
    awaited_ops cd E k (map fst o) w = (o, w1) /\ Forall op_good (map fst o) /\
    exists l' ys z' parts, d_walk D cfg l' s = (ys, z') /\ Forall heeds ys /\ (forall u, z = Some (Ok u) -> z' = Some (Ok u)) /\ o = concat parts /\ linked (y :: l) ys [(rd_entry rd, x)] parts).
  { intros z NZ (NQ & LK). split; [exact A|]. split; [exact GO|].
    set (q := (if sy_done st then dr_done else dr_skip) (sy_patience st) (rd_descriptor rd) r') in *.
    exists [st], [{| sd_entry := rd_entry rd; sd_polls := ps; sd_left := None |}], (match q with Some (Err e) => Some (Err e) | Some (Panic p) => Some (Panic p) | _ => None end), [o].
    split; [cbn [d_walk]; rewrite NX, DP; fold q; destruct q as [[s'|e|e]|]; [now elim (NQ s')|reflexivity..]|]. split; [constructor; [intro N; now elim N|constructor]|].
    split; [intros u U; now elim (NZ u)|]. split; [cbn [concat]; now rewrite app_nil_r|]. constructor; [exact LK|constructor]. }
  destruct t as [[s'|e|e]|]; [|apply LAST; [intro; discriminate|exact H]..]. clear LAST.
  destruct H as (Q & NB & LK). specialize (IH G s' w1). destruct (relay cd D E k cfg l s' w1) as [[[xs z] os] w2]. destruct IH as (A2 & GO2 & l' & ys & z' & parts & W & HE & ZZ & EQ & LL).
  split; [rewrite map_app, ops_app, A, A2; reflexivity|]. split; [rewrite map_app; apply Forall_app; now split|].
  exists (st :: l'), ({| sd_entry := rd_entry rd; sd_polls := ps; sd_left := Some (sy_done st) |} :: ys), z', (o :: parts).
  split; [cbn [d_walk]; rewrite NX, DP, Q, W; reflexivity|]. split; [constructor; [intros _; exact NB|exact HE]|]. split; [exact ZZ|]. split; [cbn [concat]; now rewrite EQ|]. now constructor.
Qed.
Lemma linked_as es : forall l ys1 zs xs parts, Forall2 visited_as es ys1 -> Forall (fun y => sd_left y <> None) ys1 -> linked l (ys1 ++ zs) xs parts ->
  exists xs1 xs2 parts1 parts2, xs = xs1 ++ xs2 /\ parts = parts1 ++ parts2 /\ relays_as l es xs1 parts1 /\ linked (skipn (length es) l) zs xs2 parts2.
Proof.
  induction es as [|z es IH]; intros l ys1 zs xs parts V LF LK.
  { inversion V; subst. exists [], xs, [], parts. split; [reflexivity|]. split; [reflexivity|]. split; [constructor|exact LK]. }
  inversion V as [|? v ? vs V1 V2]; subst. apply Forall_cons_iff in LF as [L1 LF]. cbn [app] in LK. inversion LK as [|y l1 ? ? x xs0 part ps LK1 LK2]; subst.
  destruct (IH _ _ _ _ _ V2 LF LK2) as (xs1 & xs2 & p1 & p2 & -> & -> & RA & LZ). exists (x :: xs1), xs2, (part :: p1), p2. split; [reflexivity|]. split; [reflexivity|]. split; [|exact LZ].
  constructor; [|exact RA]. destruct LK1 as (FX & LK1). destruct V1 as (VE & VP & VA). split; [congruence|]. rewrite VE in LK1. destruct (sd_left v) as [dn|]; [|now elim L1].
  destruct (rp_as y (fst z)) as [e|], (snd x) as [|r|r|]; try exact LK1.
  - destruct LK1 as (-> & body & FB & ->). exists body. split; [rewrite FB; apply VA; now right|reflexivity].
  - destruct LK1 as (NY & body & closed & FB & ->). split; [exact NY|]. exists body, closed. split; [now rewrite FB|reflexivity].
Qed.
Lemma relay_told l s w0 xs z outs w : Forall relay_good l -> len (s_data s) < 0x10000000000000000 -> relay cd D E k cfg l s w0 = (xs, z, outs, w) ->
  awaited_ops cd E k (map fst outs) w0 = (outs, w) /\ Forall op_good (map fst outs) /\
  exists es rest xs1 xs2 parts lost, xs = xs1 ++ xs2 /\ outs = concat parts ++ lost /\ entries_here cd (past (s_pos s) (s_data s)) es rest /\ relays_as l es xs1 parts /\
    (xs2 = [] /\ lost = [] \/ exists x, xs2 = [x] /\ relay_gives x = false /\ relay_lost lost) /\
    (forall u, z = Some (Ok u) -> xs2 = [] /\ exists b, rest = le 4 0x02014b50 ++ b).
Proof.
  intros G LD R. pose proof (relay_walks l G s w0) as H. rewrite R in H. destruct H as (A & GO & l' & ys & z' & parts & W & HE & ZZ & EQ & LL). split; [exact A|]. split; [exact GO|].
  destruct (walk_passed cd D view inv OK cfg (s_data s) LD l' s ys z' eq_refl W HE) as (es & rest & ys1 & zs & -> & EH & V & LF & Z & O).
  destruct (linked_as es _ _ _ _ _ V LF LL) as (xs1 & xs2 & p1 & p2 & -> & -> & RA & LZ).
  assert (X : xs2 = [] /\ concat p2 = [] /\ zs = [] \/ exists x, xs2 = [x] /\ relay_gives x = false /\ relay_lost (concat p2) /\ zs <> []).
  { destruct Z as [->|(y & -> & NL & _)]; [inversion LZ; subst; now left|]. inversion LZ as [|? ? ? ? x ? part ? (_ & LK) LN]; subst. inversion LN; subst. rewrite NL in LK. right. exists x.
    split; [reflexivity|]. split; [exact (proj2 LK)|]. split; [cbn [concat]; rewrite app_nil_r; exact (proj1 LK)|discriminate]. }
  exists es, rest, xs1, xs2, p1, (concat p2). split; [reflexivity|]. split; [rewrite EQ; apply concat_app|]. split; [exact EH|]. split; [exact RA|].
  split; [destruct X as [(X1 & X2 & _)|(x & X1 & X2 & X3 & _)]; [left; now split|right; now exists x]|].
  intros u U. destruct (O u (ZZ u U)) as (-> & B). split; [|exact B]. destruct X as [(X1 & _)|(x & _ & _ & _ & NZ)]; [exact X1|now elim NZ].
Qed.

(** ** The new archive *)
Definition streams (l : list (wop * res unit)) : Prop := Forall (fun x => match fst x with OpStream false _ _ _ => True | _ => False end) l.
Lemma streams_app l1 : forall l2, streams l1 -> succeeded false (l1 ++ l2) = succeeded false l1 ++ succeeded false l2.
Proof.
  induction l1 as [|[o r] l1 IH]; intros l2 ST; cbn [succeeded app]; [reflexivity|]. apply Forall_cons_iff in ST as [S1 ST]. cbn [fst] in S1. destruct o as [| |c|e b|e b|[] e body cl]; try destruct S1.
  cbn [no_after]. rewrite (IH l2 ST). now rewrite app_assoc.
Qed.
Lemma amounts_streams y z x part : relay_amounts y z x part -> streams (map settled part) /\ length (succeeded false (map settled part)) = if relay_gives x then 1%nat else 0%nat.
Proof.
  intros (_ & H). unfold relay_gives. destruct (rp_as y (fst z)) as [e|], (snd x) as [|r|r|]; [destruct H| | |destruct H| |destruct H..].
  - destruct H as (body & _ & ->). split; [destruct r as [[u|q|q]|]; (constructor; [exact I|constructor])|]. destruct r as [[[]|q|q]|]; reflexivity.
  - destruct H as (NR & body & closed & _ & ->). split; [destruct r as [[u|q|q]|]; (constructor; [exact I|constructor])|]. destruct r as [[u|q|q]|]; [now elim (NR u)|cbn; now rewrite ?andb_false_r..].
  - subst part. split; [constructor|reflexivity].
Qed.
Lemma lost_none lost : relay_lost lost -> succeeded false (map settled lost) = [].
Proof.
  intros [->|(e & body & closed & r & -> & [->|NR])]; [reflexivity|destruct r as [[u|q|q]|]; reflexivity|]. destruct r as [[u|q|q]|]; [now elim (NR u)|cbn; now rewrite ?andb_false_r..].
Qed.
Lemma relays_all l es xs parts : relays_as l es xs parts -> length (succeeded false (map settled (concat parts))) = length (filter relay_gives xs).
Proof.
  induction 1 as [|y l z es x xs part parts A RA IH]; [reflexivity|]. cbn [concat]. rewrite map_app. destruct (amounts_streams _ _ _ _ A) as (ST & LE). rewrite (streams_app _ _ ST), app_length, LE, IH.
  cbn [filter]. now destruct (relay_gives x).
Qed.
Lemma relays_at l es xs parts : relays_as l es xs parts -> forall p z u, nth_error xs p = Some (z, Relayed (Some (Ok u))) ->
  exists y e data body, nth_error l p = Some y /\ nth_error es p = Some (z, data) /\ rp_as y z = Some e /\ fed_bytes body = data /\
    nth_error (succeeded false (map settled (concat parts))) (relay_place p xs) = Some (false, OpStream false e body true).
Proof.
  induction 1 as [|y l z es x xs part parts A RA IH]; intros p z0 u NX; [destruct p; discriminate NX|]. cbn [concat]. rewrite map_app. destruct (amounts_streams _ _ _ _ A) as (ST & LE). rewrite (streams_app _ _ ST).
  destruct p as [|p]; cbn [nth_error] in *.
  - injection NX as ->. destruct A as (FZ & A). cbn [fst snd] in *. destruct (rp_as y (fst z)) as [e|] eqn:AS; [|destruct A]. destruct A as (body & FB & ->). exists y, e, (snd z), body.
    split; [reflexivity|]. split; [f_equal; now destruct z; cbn [fst snd] in *; subst|]. split; [now rewrite FZ|]. split; [exact FB|reflexivity].
  - destruct (IH p z0 u NX) as (y' & e & data & body & NL & NE & AS & FB & NT). exists y', e, data, body. split; [exact NL|]. split; [exact NE|]. split; [exact AS|]. split; [exact FB|].
    unfold relay_place in *. cbn [firstn filter]. destruct (relay_gives x); cbn [length]; rewrite nth_error_app2 by lia; rewrite LE.
    + replace (Datatypes.S (length (filter relay_gives (firstn p xs))) - 1)%nat with (length (filter relay_gives (firstn p xs))) by lia. exact NT.
    + rewrite Nat.sub_0_r. exact NT.
Qed.
Lemma relayed_back eview D2 view2 inv2 sched l s xs z outs w w' : codec_ok cd -> engine_ok cd E eview -> decoder_ok cd D2 view2 inv2 -> decoder_lively D2 ->
  Forall relay_good l -> len (s_data s) < 0x10000000000000000 -> relay cd D E k cfg l s (zw_new sched) = (xs, z, outs, w) -> zw_close w = (Ok tt, w') ->
  made cd (map settled outs) (w_bytes w) (w_zip64 w') (w_bytes w') /\
  (unambiguous cd cfg (map fst (map settled outs)) (map settled outs) (w_zip64 w') (w_bytes w') ->
   exists f2 es rest, mem_new cfg (w_bytes w') = Ok {| m_data := w_bytes w'; m_file := f2 |} /\ entries_here cd (past (s_pos s) (s_data s)) es rest /\
   (forall u, z = Some (Ok u) -> length xs = length es /\ exists b, rest = le 4 0x02014b50 ++ b) /\
   length (f_entries f2) = relay_place (length xs) xs /\
   forall p t u, nth_error xs p = Some (t, Relayed (Some (Ok u))) ->
   exists y e data body st it, nth_error l p = Some y /\ nth_error es p = Some (t, data) /\ rp_as y t = Some e /\ fed_bytes body = data /\
     nth_error (f_entries f2) (relay_place p xs) = Some st /\ leaves cd false (OpStream false e body true) it /\ as_written (w_bytes w') it st /\ texts_kept it st /\
     forall ns s2, s_data s2 = w_bytes w' -> Forall (fun n => 0 < n) ns -> (delays (s_sched s2) + length data < length ns)%nat ->
      d_read_entry D2 ns f2 (N.of_nat (relay_place p xs)) s2 = Some (Ok data) \/
      exists c, In (RFail c) (s_sched s2) /\ d_read_entry D2 ns f2 (N.of_nat (relay_place p xs)) s2 = Some (Err (UpstreamReadError (IoOther c)))).
Proof.
  intros CK EO OK2 LV2 G LD R C. destruct (relay_told l s (zw_new sched) xs z outs w G LD R) as (O & GO & es & rest & xs1 & xs2 & parts & lost & -> & -> & EH & RA & LO & ZE).
  pose proof (by_awaits cd E eview k sched _ _ w w' EO GO O C) as M. split; [exact M|]. intro U.
  destruct (made_back cd cfg (cursor (w_bytes w')) _ _ _ _ CK M U eq_refl (Forall_nil _)) as (f2 & _ & MN & _ & _ & FE & RD). exists f2, es, rest. split; [exact MN|]. split; [exact EH|].
  assert (SU : succeeded false (map settled (concat parts ++ lost)) = succeeded false (map settled (concat parts))).
  { rewrite map_app, streams_app; [|clear -RA; induction RA as [|y l z es x xs part parts A RA IH]; [constructor|]; cbn [concat]; rewrite map_app; apply Forall_app; split; [exact (proj1 (amounts_streams _ _ _ _ A))|exact IH]].
    assert (N : succeeded false (map settled lost) = []) by (destruct LO as [(_ & ->)|(x & _ & _ & LO)]; [reflexivity|now apply lost_none]). rewrite N. apply app_nil_r. }
  rewrite SU in *. assert (LX : length xs1 = length es) by (clear -RA; induction RA; cbn [length]; congruence).
  split; [intros u Z; destruct (ZE u Z) as (-> & B); rewrite app_nil_r; now split|].
  assert (NG : filter relay_gives xs2 = []) by (destruct LO as [(-> & _)|(x & -> & GX & _)]; [reflexivity|cbn [filter]; now rewrite GX]).
  split.
  { replace (length (f_entries f2)) with (length (succeeded false (map settled (concat parts)))) by (clear -FE; induction FE; cbn [length]; congruence). rewrite (relays_all _ _ _ _ RA).
    unfold relay_place. rewrite firstn_all, filter_app, NG, app_nil_r. reflexivity. }
  intros p t u NX. assert (PL : (p < length xs1)%nat).
  { destruct (Nat.lt_ge_cases p (length xs1)) as [L|L]; [exact L|]. exfalso. rewrite nth_error_app2 in NX by exact L. apply nth_error_In in NX.
    assert (I : In (t, Relayed (Some (Ok u))) (filter relay_gives xs2)) by (apply filter_In; now split). rewrite NG in I. destruct I. }
  rewrite nth_error_app1 in NX by exact PL. assert (RP : relay_place p (xs1 ++ xs2) = relay_place p xs1) by (unfold relay_place; rewrite firstn_app; replace (p - length xs1)%nat with 0%nat by lia; now rewrite firstn_O, app_nil_r).
  destruct (relays_at _ _ _ _ RA p t u NX) as (y & e & data & body & NL & NE & AS & FB & NT). rewrite RP.
  assert (X : exists st, nth_error (f_entries f2) (relay_place p xs1) = Some st /\ exists it, leaves cd false (OpStream false e body true) it /\ as_written (w_bytes w') it st /\ texts_kept it st).
  { clear -FE NT. revert NT. generalize (relay_place p xs1) as m. induction FE as [|x st la lb (it & LI & AW & TK) FE IH]; intros m NT; [destruct m; discriminate NT|].
    destruct m as [|m]; [injection NT as ->; exists st; split; [reflexivity|]; now exists it|exact (IH m NT)]. }
  destruct X as (st & NS & it & LI & AW & TK). exists y, e, data, body, st, it. repeat (split; [assumption|]). intros ns s2 SD FN L.
  destruct (RD (N.of_nat (relay_place p xs1)) false _ data ltac:(rewrite Nat2N.id; exact NT) ltac:(rewrite <- FB; constructor) (not_exchanged cd e body false eq_refl)) as (RD1 & _).
  rewrite <- SD in RD1. exact (entry_or cd D2 view2 inv2 OK2 LV2 ns f2 (N.of_nat (relay_place p xs1)) s2 data FN RD1 L).
Qed.

(** ** Nothing stays on the way *)
Context (LV : decoder_lively D).
Lemma one_answers y rd w s1 z out j m : rd_entry rd = z ->
  rd_reader rd = er_new s1 (en_compression z) (if en_data_descriptor z then 0xFFFFFFFFFFFFFFFF else en_compressed_size z) -> len (s_data s1) < 0x10000000000000000 ->
  decoded cd (en_compression z) (data_of z (past (s_pos s1) (s_data s1))) = (out, true) -> entry_span cd (en_compression z) (data_of z (past (s_pos s1) (s_data s1))) = Some j ->
  Forall (fun n => 0 < n) (rp_buffers y) -> (delays (s_sched s1) <= m)%nat -> relay_patient m (z, out) y ->
  let '(_, t, _, _) := relay_one cd D E k y rd w in
  exists q, t = Some q /\ (faulty s1 q \/ exists s', later s1 s' /\ s_pos s' = s_pos s1 + j /\ q = after_entry (rd_descriptor rd) s').
Proof.
  intros RZ RR LD DE SP FB LM (PB & PP). unfold relay_one. rewrite RR, RZ. cbn [er_new er_src er_comp er_limit]. cbn [fst snd] in PB, PP. cbv zeta.
  set (r0 := dr_new D s1 (en_compression z) (if en_data_descriptor z then 0xFFFFFFFFFFFFFFFF else en_compressed_size z)).
  assert (LEAVE : forall (dn : bool) l ps r', dr_polls l r0 = (ps, r') -> ~ Exists found_bad ps -> (dn = true -> Exists at_end ps) ->
    exists q, (if dn then dr_done else dr_skip) (rp_patience y) (rd_descriptor rd) r' = Some q /\
      (faulty s1 q \/ exists s', later s1 s' /\ s_pos s' = s_pos s1 + j /\ q = after_entry (rd_descriptor rd) s')).
  { intros dn l ps r' DP NF AE. pose proof (stay_midway cd D view inv OK s1 z l LD) as SM. cbv zeta in SM. fold r0 in SM. rewrite DP in SM. destruct SM as (LA & _ & SM). destruct (SM NF) as (MW & PR & AD).
    assert (LO : left_ok cd D (s_pos s1) (en_compression z) (data_of z (past (s_pos s1) (s_data s1))) (rd_descriptor rd) dn r' (told ps) ((if dn then dr_done else dr_skip) (rp_patience y) (rd_descriptor rd) r'))
      by (destruct dn; [eapply done_left; eassumption|eapply skip_left; eassumption]).
    pose proof (later_length _ _ LA) as LAL.
    assert (AN : (if dn then dr_done else dr_skip) (rp_patience y) (rd_descriptor rd) r' <> None).
    { destruct dn.
      - unfold dr_done. pose proof (read_answers D LV 1 (rp_patience y) r' ltac:(lia)) as X. destruct (dr_read (rp_patience y) 1 r') as [[|b|e] r2]; try discriminate. now elim X.
      - unfold dr_skip. assert (F : Forall (fun n => 0 < n) (repeat 2048 (rp_patience y))) by (clear; induction (rp_patience y); constructor; [reflexivity|assumption]).
        pose proof (to_end_answers cd D view inv OK LV _ _ _ _ F r' _ MW) as X. rewrite DE, repeat_length in X. cbn [fst] in X. specialize (X ltac:(lia)).
        destruct (dr_to_end (repeat 2048 (rp_patience y)) r') as [[[q|q|q]|] r2]; try discriminate. now elim X. }
    destruct ((if dn then dr_done else dr_skip) (rp_patience y) (rd_descriptor rd) r') as [q|]; [|now elim AN]. exists q. split; [reflexivity|].
    cbn [left_ok] in LO; rewrite ?DE in LO; cbn [fst snd] in LO.
    destruct LO as [F|[(X & _)|[(SDN & NE2 & _)|(j' & s' & J & LE & PS & _ & DN & ->)]]]; [left; exact (faulty_later _ _ _ LA F)|discriminate X| |].
    - exfalso. apply NE2. specialize (AD (AE SDN)). congruence.
    - rewrite SP in J. injection J as <-. right. exists s'. split; [exact (later_trans _ _ _ LA LE)|]. now split. }
  assert (N0 : ~ Exists found_bad (@nil (read_call * rpoll))) by (intro X; inversion X).
  assert (SK : exists q, dr_skip (rp_patience y) (rd_descriptor rd) r0 = Some q /\ (faulty s1 q \/ exists s', later s1 s' /\ s_pos s' = s_pos s1 + j /\ q = after_entry (rd_descriptor rd) s'))
    by (exact (LEAVE false [] [] r0 eq_refl N0 ltac:(discriminate))).
  destruct (rp_as y z) as [e|]; [|exact SK]. destruct (stream_open cd false e w) as [[sw|x|x] w1]; [|exact SK..].
  set (o := (sw, match sw_enc sw with Some st => Some (eg_new E st) | None => None end)).
  pose proof (pipe_polls (rp_buffers y) r0 o w1 FB) as PL. pose proof (pipe_reader cd D E k (rp_buffers y) r0 o w1) as PR.
  destruct (pipe (rp_buffers y) r0 o w1) as [[[x r'] c] w2]. destruct PL as (l & ps & DP & _ & PL). destruct x as [o'|z'|z'].
  - destruct (LEAVE true l ps r' DP (proj2 PL) (fun _ => proj1 PL)) as (q & Q & H). cbn [negb] in Q. rewrite Q. destruct q as [s'|x|x]; [destruct (shut cd E k o' w2) as [u w3]|..]; (eexists; split; [reflexivity|exact H]).
  - pose proof (midway_new cd D view inv OK s1 (en_compression z) (if en_data_descriptor z then 0xFFFFFFFFFFFFFFFF else en_compressed_size z)) as MN. fold r0 in MN.
    rewrite ahead_take, (whole_data s1 z _ LD eq_refl) in MN.
    pose proof (to_end_answers cd D view inv OK LV _ _ _ _ FB r0 _ MN) as X. rewrite DE in X. cbn [fst length] in X. specialize (X ltac:(unfold r0; cbn [dr_new dr_src]; lia)).
    pose proof (to_end_midway cd D view inv OK _ _ _ _ FB r0 _ MN) as Y. rewrite DE in Y. cbn [snd] in Y.
    destruct z' as [[u|x|x]|]; [destruct PR| |destruct PR|now rewrite PR in X]. destruct (dr_to_end (rp_buffers y) r0) as [[[b|x'|p]|] r2]; cbn [fst] in PR; try discriminate PR. injection PR as ->.
    destruct Y as [(c' & -> & I)|(_ & Y)]; [|discriminate Y]. eexists. split; [reflexivity|]. left. now exists c'.
  - exact (LEAVE false l ps r' DP PL ltac:(discriminate)).
Qed.
Lemma relay_arrives d : len d < 0x10000000000000000 -> forall t es, goes cd t es -> forall m l s w, s_data s = d -> past (s_pos s) d = t -> Forall relay_good l ->
  (delays (s_sched s) <= m)%nat -> (length es < length l)%nat -> Forall2 (relay_patient m) es (firstn (length es) l) ->
  let '(xs, z, _, _) := relay cd D E k cfg l s w in z = Some (Ok tt) \/ exists r, z = Some r /\ faulty s r.
Proof.
  intros LD t es G. induction G as [t|t tp m0 z out j tail es R T Rd DE SP B G IH]; intros m l s w DS P GD LM LL TH; (destruct l as [|y l]; [cbn [length] in LL; lia|]); cbn [relay].
  - pose proof (next_any cfg s) as NX. destruct (next_ends cfg (calm s)) as (s' & N0); [constructor|..].
    { exists (firstn (N.to_nat (s_pos s)) (s_data s)), t. cbn [calm s_data s_pos]. subst d. rewrite <- P. unfold past. rewrite firstn_skipn. split; [reflexivity|].
      apply (f_equal len) in P. rewrite len_past, len_app in P. change (len (le 4 0x02014b50)) with 4 in P.
      rewrite <- take_firstn, len_take. change (s_pos (calm s)) with (s_pos s). lia. }
    rewrite N0 in NX. destruct (stream_next cfg s) as [r s1]. destruct NX as [(c & I & ->)|(_ & _ & NX)]; [right; eexists; split; [reflexivity|]; now exists c|].
    destruct r as [[rd|]|e|p]; [destruct NX as (? & X & _); discriminate X| |discriminate NX|discriminate NX]. now left.
  - subst d. pose proof (next_any cfg s) as NX. rewrite <- P in R. destruct (next_takes cfg (calm s) tp m0 z (Forall_nil _) R T Rd) as (rd0 & s0 & N0 & RE & M).
    rewrite N0 in NX. destruct (stream_next cfg s) as [r s1] eqn:NE. destruct NX as [(c & I & ->)|(LA & S0 & NX)]; [right; eexists; split; [reflexivity|]; now exists c|].
    destruct r as [[rd|]|e|p]; [|discriminate NX..]. destruct NX as (rd1 & X & E1 & E2 & _). injection X as <-.
    pose proof (next_reads _ _ _ _ NE) as (D1 & _ & _ & _ & _ & RD & RR).
    assert (Z : rd_entry rd = z) by congruence. subst s0. change (past (s_pos s1) (s_data s1) = m0) in M. rewrite Z in RR.
    cbn [length firstn] in LL, TH. apply both_cons in TH as [TY TH]. apply Forall_cons_iff in GD as [GY GD].
    pose proof (one_answers y rd w s1 z out j m Z RR ltac:(now rewrite D1) ltac:(now rewrite M) ltac:(now rewrite M) (proj1 GY) ltac:(pose proof (later_length _ _ LA); lia) TY) as OA.
    destruct (relay_one cd D E k y rd w) as [[[x q0] o] w1]. destruct OA as (q & -> & OA). rewrite D1 in M.
    destruct OA as [F|(s' & LB & PS & ->)]; [destruct F as (c & I & ->); right; eexists; split; [reflexivity|]; destruct LA as (_ & u & U); exists c; split; [rewrite U; apply in_or_app; now right|reflexivity]|].
    pose proof (later_trans _ _ _ LA LB) as LF. destruct LF as (D5 & LF2). rewrite RD, Z.
    assert (B' : behind (en_data_descriptor z) (past (s_pos s1 + j) (s_data s)) tail) by (rewrite past_drop, <- drop_drop, <- past_drop, <- past_drop, M; exact B).
    assert (ST : stands (calm s') (s_data s) (s_pos s1 + j)) by (repeat split; [exact D5|exact PS|constructor]).
    destruct (after_behind _ _ _ _ _ ST B') as (s2c & AC & S2 & P2).
    destruct (after_any (en_data_descriptor z) s') as [(c & I & ->)|(A1 & A2 & A3)].
    { right. eexists. split; [reflexivity|]. destruct LF2 as (u & U). exists c. split; [rewrite U; apply in_or_app; now right|reflexivity]. }
    destruct (after_entry (en_data_descriptor z) s') as [s2|e|e]; [|specialize (A1 e eq_refl); congruence|specialize (A2 e eq_refl); congruence].
    destruct (A3 s2 eq_refl) as (LG & AC'). rewrite AC in AC'. injection AC' as ->. cbn [calm s_pos] in P2.
    assert (LH : later s s2) by (exact (later_trans _ _ _ (conj D5 LF2) LG)). pose proof (later_length _ _ LH) as LHL.
    specialize (IH m l s2 w1 (proj1 LH) P2 GD ltac:(lia) ltac:(lia) TH). destruct (relay cd D E k cfg l s2 w1) as [[[xs o'] os] w2].
    destruct IH as [->|(q & -> & FQ)]; [now left|right; exists q; split; [reflexivity|exact (faulty_later _ _ _ LH FQ)]].
Qed.
Lemma here_goes l es rest b : entries_here cd l es rest -> rest = le 4 0x02014b50 ++ b -> goes cd l es.
Proof. induction 1 as [|l z out tail xs rest [t m j R T Rd DE SP B] H IH]; intro Q; [subst; constructor|]. econstructor; eauto. Qed.
(** whatever the sink does, the stream is gone through, or its fault is told *)
Lemma relay_ends l s w0 xs z outs w es : Forall relay_good l -> len (s_data s) < 0x10000000000000000 -> goes cd (past (s_pos s) (s_data s)) es -> (length es < length l)%nat ->
  Forall2 (relay_patient (delays (s_sched s))) es (firstn (length es) l) -> relay cd D E k cfg l s w0 = (xs, z, outs, w) ->
  z = Some (Ok tt) /\ (exists parts, outs = concat parts /\ relays_as l es xs parts) \/ exists c, In (RFail c) (s_sched s) /\ z = Some (Err (UpstreamReadError (IoOther c))).
Proof.
  intros G LD GO LL PT R. pose proof (relay_arrives (s_data s) LD _ es GO _ l s w0 eq_refl eq_refl G (le_n _) LL PT) as H. rewrite R in H.
  destruct H as [->|(r & -> & c & I & ->)]; [|right; exists c; now split]. left. split; [reflexivity|].
  destruct (relay_told l s w0 xs _ outs w G LD R) as (_ & _ & es' & rest & xs1 & xs2 & parts & lost & -> & -> & EH & RA & LO & ZE).
  destruct (ZE tt eq_refl) as (-> & b & RB). pose proof (here_goes _ _ _ _ EH RB) as GO'.
  assert (LP : len (past (s_pos s) (s_data s)) < 0x10000000000000000) by (rewrite len_past; lia).
  rewrite (goes_unique cd _ es es' LP GO GO'). exists parts. rewrite app_nil_r. split; [|exact RA]. destruct LO as [(_ & ->)|(x & X & _)]; [apply app_nil_r|discriminate X].
Qed.

(** ** Whose fault it is *)
Lemma fed_patient sched e body closed (n : nat) : (length (fed_bytes body) <= n)%nat -> (SpecLively.waits sched + n < k)%nat -> SpecLively.patient k sched (OpStream false e body closed).
Proof.
  intros L H. split; [|lia]. apply Forall_forall. intros x I. destruct x as [b|]; [|exact Logic.I]. enough ((length b <= length (fed_bytes body))%nat) by lia.
  clear L. induction body as [|y body IH]; [destruct I|]. unfold fed_bytes in *. cbn [flat_map map concat]. rewrite ?app_length. destruct I as [->|I]; [cbn [length]; lia|]. specialize (IH I). lia.
Qed.
Lemma ops_prefix a : forall b w x y w', awaited_ops cd E k (a ++ b) w = (x ++ y, w') -> length x = length a -> exists w1, awaited_ops cd E k a w = (x, w1).
Proof.
  intros b w x y w' H L. rewrite ops_app in H. destruct (awaited_ops cd E k a w) as [o1 w1] eqn:A. exists w1. destruct (awaited_ops cd E k b w1) as [o2 w2]. injection H as H _. f_equal.
  assert (LO : length o1 = length a) by (clear -A; revert w o1 w1 A; induction a as [|o a IH]; intros w o1 w1 A; cbn [awaited_ops] in A; [now injection A as <- _|]; destruct (awaited_op cd E k o w) as [r w2];
    specialize (IH w2); destruct (awaited_ops cd E k a w2) as [q w3]; injection A as <- _; cbn [length]; f_equal; now apply (IH q w3)).
  rewrite <- L in LO. clear -H LO. revert x H LO. induction o1 as [|o o1 IH]; intros [|p x] H LO; cbn [length app] in *; try lia; [reflexivity|]. injection H as -> H. f_equal. apply IH; [exact H|lia].
Qed.
Lemma parts_handy l es xs parts : relays_as l es xs parts -> Forall relay_handy l -> Forall op_good (map fst (concat parts)) -> Forall handy (map fst (concat parts)).
Proof.
  induction 1 as [|y l z es x xs part parts (_ & A) RA IH]; intros HA G; [constructor|]. apply Forall_cons_iff in HA as [H1 HA]. cbn [concat] in *. rewrite map_app in *. apply Forall_app in G as [G1 G2].
  apply Forall_app. split; [|exact (IH HA G2)]. destruct (rp_as y (fst z)) as [e|] eqn:AS.
  - destruct (H1 _ _ AS) as (ND & RM). assert (S : exists body closed r, part = [(OpStream false e body closed, r)]).
    { destruct (snd x) as [|r|r|]; [destruct A| | |destruct A]; [destruct A as (body & _ & ->); now exists body, true, r|destruct A as (_ & body & closed & _ & ->); now exists body, closed, r]. }
    destruct S as (body & closed & r & ->). cbn [map fst] in *. apply Forall_cons_iff in G1 as [G1 _]. constructor; [|constructor]. split; [discriminate|]. split; [exact G1|]. split; [exact ND|exact RM].
  - destruct (snd x) as [|r|r|]; [subst part; constructor|destruct A..].
Qed.
Lemma parts_blamed l es xs parts sched : relays_as l es xs parts -> Forall (fun x => ended_by k sched (fst x) (snd x)) (concat parts) -> Forall2 (relay_blamed k sched) es xs.
Proof.
  induction 1 as [|y l z es x xs part parts (_ & A) RA IH]; intro B; [constructor|]. cbn [concat] in B. apply Forall_app in B as [B1 B2]. constructor; [|exact (IH B2)]. unfold relay_blamed.
  assert (ONE : forall e body closed r, (length (fed_bytes body) <= length (snd z))%nat -> part = [(OpStream false e body closed, r)] ->
    match r with Some (Err e) => (exists io, e = UpstreamReadError io) /\ ~ obliging sched | Some (Panic _) => False | None => (k <= SpecLively.waits sched + length (snd z))%nat | Some (Ok _) => True end).
  { intros e body closed r L ->. apply Forall_cons_iff in B1 as [B1 _]. cbn [fst snd] in B1. destruct r as [[u|q|q]|]; [exact I|exact B1|exact B1|]. cbn [ended_by] in B1.
    destruct (Nat.le_gt_cases k (SpecLively.waits sched + length (snd z))) as [LE|GT]; [exact LE|]. elim B1. eapply fed_patient; [exact L|exact GT]. }
  destruct (rp_as y (fst z)) as [e|]; destruct (snd x) as [|r|r|]; [exact I| | |exact I|exact I|destruct A..].
  - destruct A as (body & FB & EP). specialize (ONE e body true r ltac:(now rewrite FB) EP). destruct r as [[u|q|q]|]; exact ONE.
  - destruct A as (_ & body & closed & PX & EP). specialize (ONE e body closed r ltac:(eapply prefix_length; eassumption) EP). destruct r as [[u|q|q]|]; exact ONE.
Qed.
Lemma relay_blames eview sched l s xs z outs w : enc_takes cd -> engine_ok cd E eview -> SpecLively.engine_lively cd E eview ->
  Forall relay_good l -> Forall relay_handy l -> len (s_data s) < 0x10000000000000000 -> relay cd D E k cfg l s (zw_new sched) = (xs, z, outs, w) ->
  exists es rest xs1 xs2, xs = xs1 ++ xs2 /\ entries_here cd (past (s_pos s) (s_data s)) es rest /\ Forall2 (relay_blamed k sched) es xs1 /\
    (xs2 = [] \/ exists x, xs2 = [x] /\ relay_gives x = false) /\ (forall u, z = Some (Ok u) -> xs2 = []).
Proof.
  intros ET EO EL G HA LD R. destruct (relay_told l s _ xs z outs w G LD R) as (O & GO & es & rest & xs1 & xs2 & parts & lost & -> & -> & EH & RA & LO & ZE).
  exists es, rest, xs1, xs2. split; [reflexivity|]. split; [exact EH|]. rewrite map_app in O. destruct (ops_prefix _ _ _ _ _ _ O ltac:(now rewrite map_length)) as (w1 & O1).
  rewrite map_app in GO. apply Forall_app in GO as [GO _]. pose proof (parts_handy _ _ _ _ RA HA GO) as HP.
  pose proof (BlameProofs.all_blamed cd E eview k ET EO EL _ HP (zw_new sched) [] sched eq_refl eq_refl) as B. rewrite O1 in B.
  split; [exact (parts_blamed _ _ _ _ sched RA B)|]. split; [destruct LO as [(-> & _)|(x & -> & GX & _)]; [now left|right; now exists x]|]. intros u Z. exact (proj1 (ZE u Z)).
Qed.
Lemma relay_done eview sched l s xs z outs w es : enc_takes cd -> engine_ok cd E eview -> SpecLively.engine_lively cd E eview ->
  Forall relay_good l -> Forall relay_handy l -> len (s_data s) < 0x10000000000000000 -> goes cd (past (s_pos s) (s_data s)) es -> (length es < length l)%nat ->
  Forall2 (relay_patient (delays (s_sched s))) es (firstn (length es) l) -> nofail (s_sched s) -> obliging sched -> Forall (fun x => (SpecLively.waits sched + length (snd x) < k)%nat) es ->
  relay cd D E k cfg l s (zw_new sched) = (xs, z, outs, w) -> xs = relay_ideal es l /\ z = Some (Ok tt) /\ fst (zw_close w) = Ok tt.
Proof.
  intros ET EO EL G HA LD GS LL PT NF OB KB R. destruct (relay_ends l s _ xs z outs w es G LD GS LL PT R) as [(ZE & parts & EQ & RA)|(c & I & _)].
  2: { unfold nofail in NF. rewrite Forall_forall in NF. specialize (NF _ I). discriminate NF. }
  destruct (relay_told l s _ xs z outs w G LD R) as (O & GO & _). subst outs. pose proof (parts_handy _ _ _ _ RA HA GO) as HP.
  assert (PA : Forall (SpecLively.patient k sched) (map fst (concat parts))).
  { clear -RA KB. revert KB. induction RA as [|y l z es x xs part parts (_ & A) RA IH]; intro KB; [constructor|]. apply Forall_cons_iff in KB as [K1 KB]. cbn [concat]. rewrite map_app. apply Forall_app.
    split; [|exact (IH KB)]. destruct (rp_as y (fst z)) as [e|]; destruct (snd x) as [|r|r|]; [destruct A| | |destruct A| |destruct A..].
    - destruct A as (body & FB & ->). constructor; [|constructor]. eapply fed_patient; [|exact K1]. now rewrite FB.
    - destruct A as (_ & body & closed & PX & ->). constructor; [|constructor]. eapply fed_patient; [|exact K1]. eapply prefix_length; eassumption.
    - subst part. constructor. }
  destruct (all_awaited cd E eview k ET EO EL _ HP (zw_new sched) PA eq_refl OB) as (w1 & AW & CH). rewrite O in AW. injection AW as EO1 <-.
  split; [|split; [exact ZE|]].
  - assert (OO : Forall (fun x => snd x = Some (Ok tt)) (concat parts)) by (rewrite EO1; apply Forall_map; apply Forall_forall; reflexivity).
    clear -RA OO. revert OO. induction RA as [|y l z es x xs part parts (FX & A) RA IH]; intro OO; [reflexivity|]. cbn [concat] in OO. apply Forall_app in OO as [O1 O2]. cbn [relay_ideal]. f_equal; [|exact (IH O2)].
    unfold relay_well. destruct x as [x1 x2]. cbn [fst snd] in *. subst x1. destruct (rp_as y (fst z)) as [e|]; destruct x2 as [|r|r|]; [destruct A| | |destruct A|reflexivity|destruct A..].
    + destruct A as (body & _ & ->). apply Forall_cons_iff in O1 as [O1 _]. cbn [snd] in O1. now subst.
    + destruct A as (NY & body & closed & _ & ->). apply Forall_cons_iff in O1 as [O1 _]. cbn [snd] in O1. now elim (NY tt).
  - apply close_works.
    + exact (ChainFacts.chain_short _ _ _ _ CH ltac:(constructor)).
    + rewrite (ChainFacts.chain_force _ _ _ _ CH), map_map. cbn [fst]. rewrite map_id. now apply handy_not_no.
    + destruct (ChainFacts.chain_evol _ _ _ _ CH) as (_ & _ & _ & (u & U)). change (WriterFacts.w_sched (zw_new sched)) with sched in U. rewrite U in OB. now apply obliging_app in OB.
Qed.
End Relayed.
