(** Proofs: what is copied from a stream that was cut short. *)
From Verif Require Import Base BaseFacts Crc32 SpecFormat SpecCrc SpecArchive SpecRead SpecWrite SpecBlame SpecMade SpecExact SpecThrough SpecStream SpecSalvage SpecRemains ZString ZDate Headers ExtraField Entry IO IOFacts Reader
  EntryReader StreamReader Writer StreamPolls EncoderPolls AwaitedWrites SpecEncoder SpecLively SpecOrdinary LivelyProofs BlameProofs MadeProofs ReaderPolls SpecReadPolls DecoderPolls SpecDecoder DecoderProofs
  DecoderWalk SpecWalk DecoderWalkProofs ReadPollProofs SpecStrict ReaderFacts LfhFacts EntryProofs ReadProofs StreamProofs RoundTrip StreamWalk FrontProofs StrictProofs ExactProofs ExactTop ThroughProofs FaultWalkProofs
  SalvageProofs SpecAwake AwakeProofs SpecEndure EndureProofs RemainsProofs MadeRead Piped PipedProofs Relay SpecRelay SpecRescue RelayProofs.
Import Writer SpecReadPolls DecoderProofs FaultWalkProofs AwakeProofs.
Arguments N.add : simpl never.

Section Rescue.
Context (cd : codec) (D : decoder) (view : dg_state D -> compression * bytes * bytes) (inv : dg_state D -> bytes -> Prop) (OK : decoder_ok cd D view inv).
Context (E : engine cd) (k : nat) (cfg : config).

(** ** What is copied of a stream that was cut *)
Lemma cut_relayed a all n l s w0 xs z outs w : dec_local cd -> len a < 0x10000000000000000 -> goes cd a all -> s_data s = upto n a -> s_pos s = 0 ->
  Forall relay_good l -> relay cd D E k cfg l s w0 = (xs, z, outs, w) ->
  exists es before after l' xs1 xs2 parts lost, all = before ++ after /\ entries_here cd a before l' /\ len a <= len l' + n /\ xs = xs1 ++ xs2 /\ outs = concat parts ++ lost /\ relays_as l es xs1 parts /\
    (xs2 = [] /\ lost = [] \/ exists x, xs2 = [x] /\ relay_gives x = false /\ relay_lost lost) /\
    (es = before \/ exists x more y tail, after = x :: more /\ es = before ++ [y] /\ prefix (snd y) (snd x) /\ entry_here cd l' (fst x) (snd x) tail /\ n + len tail < len a) /\
    (forall u, z = Some (Ok u) -> es = all /\ xs2 = []).
Proof.
  intros LC LA GA SD SP G R. assert (LU : len (upto n a) <= len a) by (rewrite upto_take, len_take; lia).
  destruct (relay_told cd D view inv OK E k cfg l s w0 xs z outs w G ltac:(rewrite SD; lia) R) as (_ & _ & es & rest & xs1 & xs2 & parts & lost & -> & -> & EH & RA & LO & ZE).
  rewrite SP, SD in EH. change (past 0 (upto n a)) with (upto n a) in EH.
  destruct (cut_passed cd LC a all GA n es rest EH) as (before & after & l' & -> & EB & GO & LL & C). exists es, before, after, l', xs1, xs2, parts, lost.
  split; [reflexivity|]. split; [exact EB|]. split; [exact LL|]. split; [reflexivity|]. split; [reflexivity|]. split; [exact RA|]. split; [exact LO|].
  destruct C as [[-> ->]|(x & more & y & tail & -> & -> & -> & ((q & RQ) & _) & TL & JL)].
  - split; [now left|]. intros u Z. destruct (ZE u Z) as (-> & b & ER). split; [|reflexivity].
    assert (L4 : 4 <= len (upto (n + len l' - len a) l')) by (rewrite ER, len_app; change (len (le 4 0x02014b50)) with 4; lia).
    rewrite upto_take, len_take in L4. destruct GO as [l'|l' t m z0 out j tail more R0 T Rd D0 E0 B GO]; [now rewrite app_nil_r|]. exfalso.
    destruct R0 as [? ? ? ? ? ? ? ? ? ? m0 ? NU _]. apply nums_head in NU. change (N.of_nat 4) with 4 in NU. apply (f_equal (take 4)) in ER. rewrite upto_take, take_take, N.min_l in ER by lia.
    rewrite take_app_exact in ER by reflexivity. rewrite ER in NU. vm_compute in NU. discriminate NU.
  - split; [|intros u Z; destruct (ZE u Z) as (_ & b & Q); discriminate Q]. right. exists x, more, y, tail. split; [reflexivity|]. split; [reflexivity|]. split; [now exists q|]. now split.
Qed.

(** ** All that lies before the cut *)
Context (LV : decoder_lively D).
Lemma one_amounts y rd w s1 z out x s' o w' : relay_good y -> rd_entry rd = z ->
  rd_reader rd = er_new s1 (en_compression z) (if en_data_descriptor z then 0xFFFFFFFFFFFFFFFF else en_compressed_size z) -> len (s_data s1) < 0x10000000000000000 ->
  decoded cd (en_compression z) (data_of z (past (s_pos s1) (s_data s1))) = (out, true) ->
  relay_one cd D E k y rd w = (x, Some (Ok s'), o, w') -> relay_amounts y (z, out) (z, x) o.
Proof.
  intros G RZ RR LD DE R. pose proof (one_ends cd D view inv OK E k y rd w G) as H. rewrite R, RR, RZ in H. cbn [er_new er_src er_comp er_limit] in H. destruct H as (_ & _ & st & H).
  pose proof (stay_midway cd D view inv OK s1 z (sy_polls st) LD) as SM. cbv zeta in SM. destruct (dr_polls (sy_polls st) _) as [ps r']. cbv zeta in H. destruct H as (Q & NB & FX & LK).
  destruct SM as (_ & _ & SM). destruct (SM NB) as (MW & PR & _). rewrite DE in PR. cbn [fst] in PR. split; [reflexivity|]. cbn [fst snd sd_left sd_entry sd_polls] in *.
  destruct (rp_as y z) as [e|], x as [|r|r|]; [destruct LK| | |destruct LK|exact LK|destruct LK..].
  - destruct LK as (DN & body & FB & ->). exists body. split; [|reflexivity]. rewrite FB. rewrite DN in Q.
    pose proof (done_left cd D view inv OK _ _ _ (rd_descriptor rd) (sy_patience st) r' _ MW) as LO. rewrite Q in LO. cbn [left_ok] in LO. rewrite DE in LO. cbn [fst snd] in LO.
    destruct LO as [(c & _ & X)|[(X & _)|[(_ & _ & X)|(j' & s2 & _ & _ & _ & _ & LO & _)]]]; [discriminate X|discriminate X|discriminate X|exact (LO eq_refl)].
  - destruct LK as (NY & body & closed & FB & ->). split; [exact NY|]. exists body, closed. split; [now rewrite FB|reflexivity].
Qed.
Lemma relay_through d : len d < 0x10000000000000000 -> forall t es rest, entries_here cd t es rest -> forall m l s w, s_data s = d -> past (s_pos s) d = t -> Forall relay_good l ->
  (delays (s_sched s) <= m)%nat -> (length es <= length l)%nat -> Forall2 (relay_patient m) es (firstn (length es) l) ->
  let '(xs, z, outs, _) := relay cd D E k cfg l s w in
  (exists xs1 xs2 parts more, xs = xs1 ++ xs2 /\ outs = concat parts ++ more /\ relays_as l es xs1 parts) \/ exists r, z = Some r /\ faulty s r.
Proof.
  intros LD t es rest G. induction G as [t|t z out tail es rest [tp m0 j R T Rd DE SP B] G IH]; intros m l s w DS P GD LM LL TH.
  - destruct (relay cd D E k cfg l s w) as [[[xs z] outs] w']. left. exists [], xs, [], outs. split; [reflexivity|]. split; [reflexivity|constructor].
  - destruct l as [|y l]; [cbn [length] in LL; lia|]. cbn [relay].
    subst d. pose proof (next_any cfg s) as NX. rewrite <- P in R. destruct (next_takes cfg (calm s) tp m0 z (Forall_nil _) R T Rd) as (rd0 & s0 & N0 & RE & M).
    rewrite N0 in NX. destruct (stream_next cfg s) as [r s1] eqn:NE. destruct NX as [(c & I & ->)|(LA & S0 & NX)]; [right; eexists; split; [reflexivity|]; now exists c|].
    destruct r as [[rd|]|e|p]; [|discriminate NX..]. destruct NX as (rd1 & X & E1 & E2 & _). injection X as <-.
    pose proof (next_reads _ _ _ _ NE) as (D1 & _ & _ & _ & _ & RD & RR).
    assert (Z : rd_entry rd = z) by congruence. subst s0. change (past (s_pos s1) (s_data s1) = m0) in M. rewrite Z in RR.
    cbn [length firstn] in LL, TH. apply both_cons in TH as [TY TH]. apply Forall_cons_iff in GD as [GY GD].
    pose proof (one_answers cd D view inv OK E k LV y rd w s1 z out j m Z RR ltac:(now rewrite D1) ltac:(now rewrite M) ltac:(now rewrite M) (proj1 GY) ltac:(pose proof (later_length _ _ LA); lia) TY) as OA.
    destruct (relay_one cd D E k y rd w) as [[[x q0] o] w1] eqn:RO. destruct OA as (q & -> & OA).
    assert (AM : forall s', q = Ok s' -> relay_amounts y (z, out) (z, x) o) by (intros s' ->; exact (one_amounts y rd w s1 z out x s' o w1 GY Z RR ltac:(now rewrite D1) ltac:(now rewrite M) RO)).
    clear RO. rewrite D1 in M.
    destruct OA as [F|(s' & LB & PS & ->)]; [destruct F as (c & I & ->); right; eexists; split; [reflexivity|]; destruct LA as (_ & u & U); exists c; split; [rewrite U; apply in_or_app; now right|reflexivity]|].
    pose proof (later_trans _ _ _ LA LB) as LF. destruct LF as (D5 & LF2). rewrite RD, Z in *.
    assert (B' : behind (en_data_descriptor z) (past (s_pos s1 + j) (s_data s)) tail) by (rewrite past_drop, <- drop_drop, <- past_drop, <- past_drop, M; exact B).
    assert (ST : stands (calm s') (s_data s) (s_pos s1 + j)) by (repeat split; [exact D5|exact PS|constructor]).
    destruct (after_behind _ _ _ _ _ ST B') as (s2c & AC & S2 & P2).
    destruct (after_any (en_data_descriptor z) s') as [(c & I & ->)|(A1 & A2 & A3)].
    { right. eexists. split; [reflexivity|]. destruct LF2 as (u & U). exists c. split; [rewrite U; apply in_or_app; now right|reflexivity]. }
    destruct (after_entry (en_data_descriptor z) s') as [s2|e|e]; [|specialize (A1 e eq_refl); congruence|specialize (A2 e eq_refl); congruence].
    destruct (A3 s2 eq_refl) as (LG & AC'). rewrite AC in AC'. injection AC' as ->. cbn [calm s_pos] in P2.
    assert (LH : later s s2) by (exact (later_trans _ _ _ (conj D5 LF2) LG)). pose proof (later_length _ _ LH) as LHL.
    specialize (IH m l s2 w1 (proj1 LH) P2 GD ltac:(lia) ltac:(lia) TH). destruct (relay cd D E k cfg l s2 w1) as [[[xs o'] os] w2].
    destruct IH as [(xs1 & xs2 & parts & more & -> & -> & RA)|(q & -> & FQ)]; [left|right; exists q; split; [reflexivity|exact (faulty_later _ _ _ LH FQ)]].
    exists ((z, x) :: xs1), xs2, (o :: parts), more. split; [reflexivity|]. split; [cbn [concat]; apply app_assoc|]. constructor; [exact (AM s2 eq_refl)|exact RA].
Qed.
(** the calls: one of the entries made, with no more than the buffers hold *)
Lemma relay_calls l : Forall relay_good l -> forall s w, let '(_, _, outs, _) := relay cd D E k cfg l s w in Forall (call_of l) (map fst outs).
Proof.
  induction l as [|y l IH]; intros G s w; cbn [relay]; [constructor|]. apply Forall_cons_iff in G as [G1 G].
  assert (MONO : forall o, call_of l o -> call_of (y :: l) o) by (intros o (y0 & z & e & body & closed & I & H); exists y0, z, e, body, closed; split; [now right|exact H]).
  destruct (stream_next cfg s) as [[[rd|]|e|e] s1]; [|constructor..].
  assert (ONE : let '(_, _, o, _) := relay_one cd D E k y rd w in Forall (call_of (y :: l)) (map fst o)).
  { unfold relay_one. set (r0 := dr_new D (er_src (rd_reader rd)) (er_comp (rd_reader rd)) (er_limit (rd_reader rd))). destruct (rp_as y (rd_entry rd)) as [e|] eqn:AS; [|constructor].
    assert (C : forall c closed, len (concat c) <= fold_right N.add 0 (rp_buffers y) -> call_of (y :: l) (OpStream false e (map SWriteAll c) closed))
      by (intros c closed L; exists y, (rd_entry rd), e, (map SWriteAll c), closed; split; [now left|]; split; [exact AS|]; split; [reflexivity|]; now rewrite fed_map).
    assert (C0 : call_of (y :: l) (OpStream false e (map SWriteAll []) true)) by (apply C; unfold len; cbn; lia).
    destruct (stream_open cd false e w) as [[sw|x|x] w1]; [|constructor; [exact C0|constructor]..].
    pose proof (pipe_sized cd D view inv OK E k _ _ _ (rp_buffers y) r0 (sw, match sw_enc sw with Some st => Some (eg_new E st) | None => None end) w1 _
      (midway_new cd D view inv OK (er_src (rd_reader rd)) (er_comp (rd_reader rd)) (er_limit (rd_reader rd)))) as PZ.
    destruct (pipe cd D E k (rp_buffers y) r0 _ w1) as [[[x r'] c] w2]. destruct x as [o|z|z].
    - destruct (dr_done (rp_patience y) (rd_descriptor rd) r') as [[s'|z|z]|]; [destruct (shut cd E k o w2) as [z w3]|..]; (constructor; [now apply C|constructor]).
    - constructor; [now apply C|constructor].
    - constructor; [now apply C|constructor]. }
  destruct (relay_one cd D E k y rd w) as [[[x t] o] w1]. destruct t as [[s'|e|e]|]; [|exact ONE..].
  specialize (IH G s' w1). destruct (relay cd D E k cfg l s' w1) as [[[xs z] os] w2]. rewrite map_app. apply Forall_app. split; [exact ONE|]. eapply Forall_impl; [|exact IH]. exact MONO.
Qed.
Lemma relay_saves eview sched l s xs z outs w es rest : enc_takes cd -> engine_ok cd E eview -> SpecLively.engine_lively cd E eview ->
  Forall relay_good l -> Forall relay_handy l -> len (s_data s) < 0x10000000000000000 -> entries_here cd (past (s_pos s) (s_data s)) es rest -> (length es <= length l)%nat ->
  Forall2 (relay_patient (delays (s_sched s))) es (firstn (length es) l) -> nofail (s_sched s) -> obliging sched -> Forall (relay_awaits k sched) l ->
  relay cd D E k cfg l s (zw_new sched) = (xs, z, outs, w) ->
  (exists xs2, xs = relay_ideal es l ++ xs2) /\ fst (zw_close w) = Ok tt.
Proof.
  intros ET EO EL G HA LD EH LL PT NF OB KB R.
  pose proof (relay_through (s_data s) LD _ es rest EH _ l s (zw_new sched) eq_refl eq_refl G (le_n _) LL PT) as H. rewrite R in H.
  destruct H as [(xs1 & xs2 & parts & more & -> & -> & RA)|(r & _ & c & I & _)]; [|unfold nofail in NF; rewrite Forall_forall in NF; specialize (NF _ I); discriminate NF].
  destruct (relay_told cd D view inv OK E k cfg l s _ _ z _ w G LD R) as (O & GO & _).
  pose proof (relay_calls l G s (zw_new sched)) as CA. rewrite R in CA.
  assert (HP : Forall handy (map fst (concat parts ++ more))).
  { rewrite Forall_forall in *. intros o I. destruct (CA o I) as (y & z0 & e & body & closed & IY & AS & -> & _). destruct (HA y IY z0 e AS) as (ND & RM).
    split; [discriminate|]. split; [exact (GO _ I)|]. split; [exact ND|exact RM]. }
  assert (PA : Forall (SpecLively.patient k sched) (map fst (concat parts ++ more))).
  { rewrite Forall_forall in *. intros o I. destruct (CA o I) as (y & z0 & e & body & closed & IY & AS & -> & LE). eapply fed_patient; [|exact (KB y IY)]. unfold len in LE. lia. }
  destruct (all_awaited cd E eview k ET EO EL _ HP (zw_new sched) PA eq_refl OB) as (w1 & AW & CH). rewrite O in AW. injection AW as EO1 <-. split.
  - exists xs2. f_equal. assert (OO : Forall (fun x => snd x = Some (Ok tt)) (concat parts ++ more)) by (rewrite EO1; apply Forall_map; apply Forall_forall; reflexivity). apply Forall_app in OO as [OO _].
    clear -RA OO. revert OO. induction RA as [|y l z es x xs part parts (FX & A) RA IH]; intro OO; [reflexivity|]. cbn [concat] in OO. apply Forall_app in OO as [O1 O2]. cbn [relay_ideal]. f_equal; [|exact (IH O2)].
    unfold relay_well. destruct x as [x1 x2]. cbn [fst snd] in *. subst x1. destruct (rp_as y (fst z)) as [e|]; destruct x2 as [|r|r|]; [destruct A| | |destruct A|reflexivity|destruct A..].
    + destruct A as (body & _ & ->). apply Forall_cons_iff in O1 as [O1 _]. cbn [snd] in O1. now subst.
    + destruct A as (NY & body & closed & _ & ->). apply Forall_cons_iff in O1 as [O1 _]. cbn [snd] in O1. now elim (NY tt).
  - apply close_works.
    + exact (ChainFacts.chain_short _ _ _ _ CH ltac:(constructor)).
    + rewrite (ChainFacts.chain_force _ _ _ _ CH), map_map. cbn [fst]. rewrite map_id. now apply handy_not_no.
    + destruct (ChainFacts.chain_evol _ _ _ _ CH) as (_ & _ & _ & (u & U)). change (WriterFacts.w_sched (zw_new sched)) with sched in U. rewrite U in OB. now apply obliging_app in OB.
Qed.

(** ** The same of a stream that was cut, and what is then in the new archive *)
Lemma entries_agree t es r : entries_here cd t es r -> forall es' r', entries_here cd t es' r' -> forall p x x', nth_error es p = Some x -> nth_error es' p = Some x' -> x = x'.
Proof.
  induction 1 as [t|t z out tail es r H G IH]; intros es' r' G' p x x' N1 N2; [now destruct p|].
  destruct G' as [t|t z' out' tail' es' r' H' G']; [now destruct p|]. destruct (entry_once _ _ _ _ _ _ _ _ H H') as (<- & <- & <-).
  destruct p as [|p]; cbn [nth_error] in N1, N2; [congruence|exact (IH _ _ G' p x x' N1 N2)].
Qed.
Lemma ideal_nth es : forall l p x y, nth_error es p = Some x -> nth_error l p = Some y -> nth_error (relay_ideal es l) p = Some (relay_well x y).
Proof. induction es as [|z es IH]; intros l p x y N1 N2; [now destruct p|]. destruct l as [|y0 l]; [now destruct p|]. destruct p as [|p]; cbn [nth_error relay_ideal] in *; [congruence|now apply IH]. Qed.
Lemma cut_saved eview sched a before l' n l s xs z outs w : dec_local cd -> enc_takes cd -> engine_ok cd E eview -> SpecLively.engine_lively cd E eview ->
  Forall relay_good l -> Forall relay_handy l -> len a < 0x10000000000000000 -> entries_here cd a before l' -> l' <> [] -> len a <= len l' + n -> s_data s = upto n a -> s_pos s = 0 ->
  (length before <= length l)%nat -> Forall2 (relay_patient (delays (s_sched s))) before (firstn (length before) l) -> nofail (s_sched s) -> obliging sched -> Forall (relay_awaits k sched) l ->
  relay cd D E k cfg l s (zw_new sched) = (xs, z, outs, w) ->
  (exists xs2, xs = relay_ideal before l ++ xs2) /\ fst (zw_close w) = Ok tt.
Proof.
  intros LC ET EO EL G HA LA EB NE LL SD SP LB PT NF OB KB R. assert (LU : len (upto n a) <= len a) by (rewrite upto_take, len_take; lia).
  pose proof (here_upto cd LC _ _ _ EB NE n LL) as EH.
  eapply (relay_saves eview sched l s xs z outs w before _ ET EO EL G HA); try eassumption; [rewrite SD; lia|]. rewrite SP, SD. exact EH.
Qed.
Lemma cut_through a before l' n l s w0 xs z outs w : dec_local cd -> Forall relay_good l -> len a < 0x10000000000000000 ->
  entries_here cd a before l' -> l' <> [] -> len a <= len l' + n -> s_data s = upto n a -> s_pos s = 0 ->
  (length before <= length l)%nat -> Forall2 (relay_patient (delays (s_sched s))) before (firstn (length before) l) -> relay cd D E k cfg l s w0 = (xs, z, outs, w) ->
  (exists xs1 xs2 parts more, xs = xs1 ++ xs2 /\ outs = concat parts ++ more /\ relays_as l before xs1 parts) \/
  exists c, In (RFail c) (s_sched s) /\ z = Some (Err (UpstreamReadError (IoOther c))).
Proof.
  intros LC G LA EB NE LL SD SP LB PT R. assert (LU : len (upto n a) <= len a) by (rewrite upto_take, len_take; lia).
  pose proof (relay_through (upto n a) ltac:(lia) _ _ _ (here_upto cd LC _ _ _ EB NE n LL) _ l s w0 SD ltac:(now rewrite SP) G (le_n _) LB PT) as H. rewrite R in H.
  destruct H as [H|(r & -> & c & I & ->)]; [now left|right]. now exists c.
Qed.
Lemma cut_found eview D2 view2 inv2 sched a before l' n l s xs z outs w w' : dec_local cd -> codec_ok cd -> engine_ok cd E eview -> SpecLively.engine_lively cd E eview ->
  decoder_ok cd D2 view2 inv2 -> decoder_lively D2 ->
  Forall relay_good l -> Forall relay_handy l -> len a < 0x10000000000000000 -> entries_here cd a before l' -> l' <> [] -> len a <= len l' + n -> s_data s = upto n a -> s_pos s = 0 ->
  (length before <= length l)%nat -> Forall2 (relay_patient (delays (s_sched s))) before (firstn (length before) l) -> nofail (s_sched s) -> obliging sched -> Forall (relay_awaits k sched) l ->
  relay cd D E k cfg l s (zw_new sched) = (xs, z, outs, w) -> zw_close w = (Ok tt, w') ->
  unambiguous cd cfg (map fst (map settled outs)) (map settled outs) (w_zip64 w') (w_bytes w') ->
  exists f2, mem_new cfg (w_bytes w') = Ok {| m_data := w_bytes w'; m_file := f2 |} /\
  forall p x y e, nth_error before p = Some x -> nth_error l p = Some y -> rp_as y (fst x) = Some e ->
  exists body st it, fed_bytes body = snd x /\ nth_error (f_entries f2) (relay_place p (relay_ideal before l)) = Some st /\
    leaves cd false (OpStream false e body true) it /\ as_written (w_bytes w') it st /\ texts_kept it st /\
    forall ns s2, s_data s2 = w_bytes w' -> Forall (fun n => 0 < n) ns -> (delays (s_sched s2) + length (snd x) < length ns)%nat ->
      d_read_entry D2 ns f2 (N.of_nat (relay_place p (relay_ideal before l))) s2 = Some (Ok (snd x)) \/
      exists c, In (RFail c) (s_sched s2) /\ d_read_entry D2 ns f2 (N.of_nat (relay_place p (relay_ideal before l))) s2 = Some (Err (UpstreamReadError (IoOther c))).
Proof.
  intros LC CO EO EL O2 L2 G HA LA EB NE LL SD SP LB PT NF OB KB R CL UN. assert (LU : len (upto n a) <= len a) by (rewrite upto_take, len_take; lia).
  pose proof (here_upto cd LC _ _ _ EB NE n LL) as EH.
  destruct (cut_saved eview sched a before l' n l s xs z outs w LC (proj1 CO) EO EL G HA LA EB NE LL SD SP LB PT NF OB KB R) as ((xs2 & ->) & _).
  destruct (relayed_back cd D view inv OK E k cfg eview D2 view2 inv2 sched l s _ z outs w w' CO EO O2 L2 G ltac:(rewrite SD; lia) R CL) as (_ & H).
  destruct (H UN) as (f2 & es & rest & MN & EE & _ & _ & H'). clear H. exists f2. split; [exact MN|]. intros p x y e N1 N2 AS.
  rewrite SP, SD in EE. change (past 0 (upto n a)) with (upto n a) in EE.
  pose proof (ideal_nth _ _ _ _ _ N1 N2) as NI. unfold relay_well in NI. rewrite AS in NI.
  assert (LP : (p < length (relay_ideal before l))%nat) by (apply nth_error_Some; rewrite NI; discriminate).
  destruct (H' p (fst x) tt ltac:(rewrite nth_error_app1 by exact LP; exact NI)) as (y0 & e0 & data & body & st & it & Y0 & D0 & A0 & FB & K).
  rewrite N2 in Y0. injection Y0 as <-. rewrite AS in A0. injection A0 as <-. pose proof (entries_agree _ _ _ EH _ _ EE p x _ N1 D0) as EX. rewrite EX. cbn [snd].
  assert (PL : relay_place p (relay_ideal before l ++ xs2) = relay_place p (relay_ideal before l)).
  { unfold relay_place. rewrite firstn_app. replace (p - length (relay_ideal before l))%nat with 0%nat by lia. cbn [firstn]. now rewrite app_nil_r. }
  rewrite PL in K. exists body, st, it. split; [exact FB|exact K].
Qed.
End Rescue.

(** ** Nothing else is in the new archive *)
Lemma place_onto xs : forall j, (j < relay_place (length xs) xs)%nat -> exists p t, nth_error xs p = Some (t, Relayed (Some (Ok tt))) /\ relay_place p xs = j.
Proof.
  unfold relay_place. induction xs as [|x xs IH]; intros j L; [cbn [length firstn filter] in L; lia|]. cbn [length firstn filter] in L. destruct (relay_gives x) eqn:GX.
  - destruct j as [|j].
    + destruct x as [t [|[[[]|?|?]|]|?|]]; try discriminate GX. exists 0%nat, t. now split.
    + cbn [length] in L. destruct (IH j ltac:(lia)) as (p & t & N & P). exists (S p), t. split; [exact N|]. cbn [firstn filter]. rewrite GX. cbn [length]. now rewrite P.
  - destruct (IH j L) as (p & t & N & P). exists (S p), t. split; [exact N|]. cbn [firstn filter]. now rewrite GX.
Qed.
Lemma relays_length l es xs parts : relays_as l es xs parts -> length es = length xs.
Proof. induction 1 as [|y l z es x xs part parts _ _ IH]; [reflexivity|]. cbn [length]. now rewrite IH. Qed.
Lemma cut_only cd D view inv (E : engine cd) k cfg eview D2 view2 inv2 sched a all n l s xs z outs w w' : decoder_ok cd D view inv -> dec_local cd -> codec_ok cd -> engine_ok cd E eview ->
  decoder_ok cd D2 view2 inv2 -> decoder_lively D2 ->
  len a < 0x10000000000000000 -> goes cd a all -> s_data s = upto n a -> s_pos s = 0 -> Forall relay_good l ->
  relay cd D E k cfg l s (zw_new sched) = (xs, z, outs, w) -> zw_close w = (Ok tt, w') ->
  unambiguous cd cfg (map fst (map settled outs)) (map settled outs) (w_zip64 w') (w_bytes w') ->
  exists f2, mem_new cfg (w_bytes w') = Ok {| m_data := w_bytes w'; m_file := f2 |} /\
  forall j st, nth_error (f_entries f2) j = Some st ->
  exists p x data, nth_error all p = Some x /\ prefix data (snd x) /\
    (data = snd x \/ exists l' tail, entries_here cd a (firstn p all) l' /\ entry_here cd l' (fst x) (snd x) tail /\ n + len tail < len a) /\
    forall ns s2, s_data s2 = w_bytes w' -> Forall (fun n => 0 < n) ns -> (delays (s_sched s2) + length data < length ns)%nat ->
      d_read_entry D2 ns f2 (N.of_nat j) s2 = Some (Ok data) \/
      exists c, In (RFail c) (s_sched s2) /\ d_read_entry D2 ns f2 (N.of_nat j) s2 = Some (Err (UpstreamReadError (IoOther c))).
Proof.
  intros OK LC CO EO O2 L2 LA GA SD SP G R CL UN. assert (LU : len (upto n a) <= len a) by (rewrite upto_take, len_take; lia).
  destruct (relay_told cd D view inv OK E k cfg l s _ xs z outs w G ltac:(rewrite SD; lia) R) as (_ & _ & es & rest & xs1 & xs2 & parts & lost & EQ & _ & EH & RA & LO & _).
  rewrite SP, SD in EH. change (past 0 (upto n a)) with (upto n a) in EH.
  destruct (cut_passed cd LC a all GA n es rest EH) as (before & after & l' & -> & EB & _ & _ & CP).
  destruct (relayed_back cd D view inv OK E k cfg eview D2 view2 inv2 sched l s xs z outs w w' CO EO O2 L2 G ltac:(rewrite SD; lia) R CL) as (_ & H).
  destruct (H UN) as (f2 & es' & rest' & MN & EE & _ & LF & H'). clear H. rewrite SP, SD in EE. change (past 0 (upto n a)) with (upto n a) in EE.
  exists f2. split; [exact MN|]. intros j st NJ. assert (LJ : (j < length (f_entries f2))%nat) by (apply nth_error_Some; rewrite NJ; discriminate). rewrite LF in LJ.
  destruct (place_onto xs j LJ) as (p & t & NP & PJ). destruct (H' p t tt NP) as (y0 & e0 & data & body & st0 & it & _ & D0 & _ & _ & _ & _ & _ & _ & RB). rewrite PJ in RB.
  assert (LP : (p < length es)%nat).
  { rewrite (relays_length _ _ _ _ RA). destruct (Nat.lt_ge_cases p (length xs1)) as [Q|Q]; [exact Q|]. exfalso. rewrite EQ, nth_error_app2 in NP by exact Q.
    destruct LO as [[-> _]|(x & -> & GX & _)]; [now destruct (p - length xs1)%nat|]. destruct (p - length xs1)%nat as [|q]; [|now destruct q]. cbn [nth_error] in NP. injection NP as ->. discriminate GX. }
  destruct (nth_error es p) as [x0|] eqn:NX; [|apply nth_error_None in NX; lia]. pose proof (entries_agree cd _ _ _ EH _ _ EE p x0 _ NX D0) as ->.
  assert (IN : (p < length before)%nat -> nth_error before p = Some (t, data) -> exists p x data0, nth_error (before ++ after) p = Some x /\ prefix data0 (snd x) /\
    (data0 = snd x \/ exists l' tail, entries_here cd a (firstn p (before ++ after)) l' /\ entry_here cd l' (fst x) (snd x) tail /\ n + len tail < len a) /\
    forall ns s2, s_data s2 = w_bytes w' -> Forall (fun n => 0 < n) ns -> (delays (s_sched s2) + length data0 < length ns)%nat ->
      d_read_entry D2 ns f2 (N.of_nat j) s2 = Some (Ok data0) \/
      exists c, In (RFail c) (s_sched s2) /\ d_read_entry D2 ns f2 (N.of_nat j) s2 = Some (Err (UpstreamReadError (IoOther c)))).
  { intros L N. exists p, (t, data), data. split; [now rewrite nth_error_app1|]. split; [exists []; now rewrite app_nil_r|]. split; [now left|exact RB]. }
  destruct CP as [[-> ->]|(x & more & y & tail & -> & -> & -> & ((q & RQ) & _) & TL & JL)]; [now apply IN|].
  destruct (Nat.lt_ge_cases p (length before)) as [Q|Q]; [apply IN; [exact Q|]; now rewrite nth_error_app1 in NX|]. clear IN.
  assert (PB : p = length before) by (rewrite app_length in LP; cbn [length] in LP; lia). subst p. rewrite nth_error_app2, Nat.sub_diag in NX by lia. cbn [nth_error] in NX. injection NX as ->. cbn [snd] in RQ.
  exists (length before), x, data. split; [rewrite nth_error_app2, Nat.sub_diag by lia; reflexivity|]. split; [now exists q|]. split; [right|exact RB].
  exists l', tail. split; [|now split]. rewrite firstn_app, firstn_all, Nat.sub_diag. cbn [firstn]. now rewrite app_nil_r.
Qed.
