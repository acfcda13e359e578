(** Proofs: several streams copied into one archive. *)
From Verif Require Import Base BaseFacts Crc32 SpecFormat SpecCrc SpecArchive SpecRead SpecWrite SpecBlame SpecMade SpecExact SpecThrough SpecStream SpecSalvage SpecRemains ZString ZDate Headers ExtraField Entry IO IOFacts Reader
  EntryReader StreamReader Writer StreamPolls EncoderPolls AwaitedWrites SpecEncoder SpecLively SpecOrdinary LivelyProofs BlameProofs MadeProofs ReaderPolls SpecReadPolls DecoderPolls SpecDecoder DecoderProofs
  DecoderWalk SpecWalk DecoderWalkProofs ReadPollProofs SpecStrict ReaderFacts LfhFacts EntryProofs ReadProofs StreamProofs RoundTrip StreamWalk FrontProofs StrictProofs ExactProofs ExactTop ThroughProofs FaultWalkProofs
  SalvageProofs SpecAwake AwakeProofs SpecEndure EndureProofs RemainsProofs MadeRead Piped PipedProofs Relay SpecRelay RelayProofs RescueProofs SpecRescue Merge SpecMerge.
Import Writer SpecReadPolls DecoderProofs.
Arguments N.add : simpl never.

Section Merged.
Context (cd : codec) (D : decoder) (view : dg_state D -> compression * bytes * bytes) (inv : dg_state D -> bytes -> Prop) (OK : decoder_ok cd D view inv).
Context (E : engine cd) (k : nat) (cfg : config).

(** ** What one stream gives *)
Definition gives_at (l : list relay_plan) (es : list (zentry * bytes)) (xs : list (zentry * relayed)) (place : nat -> nat) (su : list (bool * wop)) : Prop :=
  forall p t u, nth_error xs p = Some (t, Relayed (Some (Ok u))) ->
  exists y e data body, nth_error l p = Some y /\ nth_error es p = Some (t, data) /\ rp_as y t = Some e /\ fed_bytes body = data /\ nth_error su (place p) = Some (false, OpStream false e body true).
Lemma relay_gave l s w0 xs z outs w : Forall relay_good l -> len (s_data s) < 0x10000000000000000 -> relay cd D E k cfg l s w0 = (xs, z, outs, w) ->
  awaited_ops cd E k (map fst outs) w0 = (outs, w) /\ Forall op_good (map fst outs) /\ streams (map settled outs) /\
  length (succeeded false (map settled outs)) = length (filter relay_gives xs) /\
  exists es rest, entries_here cd (past (s_pos s) (s_data s)) es rest /\ (forall u, z = Some (Ok u) -> length xs = length es /\ exists b, rest = le 4 0x02014b50 ++ b) /\
    gives_at l es xs (fun p => relay_place p xs) (succeeded false (map settled outs)).
Proof.
  intros G LD R. destruct (relay_told cd D view inv OK E k cfg l s w0 xs z outs w G LD R) as (O & GO & es & rest & xs1 & xs2 & parts & lost & -> & -> & EH & RA & LO & ZE).
  split; [exact O|]. split; [exact GO|].
  assert (SP : streams (map settled (concat parts))) by (clear -RA; induction RA as [|y l z es x xs part parts A RA IH]; [constructor|]; cbn [concat]; rewrite map_app; apply Forall_app; split; [exact (proj1 (amounts_streams _ _ _ _ A))|exact IH]).
  assert (SL : streams (map settled lost)).
  { destruct LO as [(_ & ->)|(x & _ & _ & [->|(e & body & closed & r & -> & _)])]; [constructor|constructor|]. destruct r as [r|]; (constructor; [exact Logic.I|constructor]). }
  assert (SU : succeeded false (map settled (concat parts ++ lost)) = succeeded false (map settled (concat parts))).
  { rewrite map_app, streams_app by exact SP. assert (N : succeeded false (map settled lost) = []) by (destruct LO as [(_ & ->)|(x & _ & _ & LO)]; [reflexivity|now apply lost_none]). rewrite N. apply app_nil_r. }
  assert (NG : filter relay_gives xs2 = []) by (destruct LO as [(-> & _)|(x & -> & GX & _)]; [reflexivity|cbn [filter]; now rewrite GX]).
  split; [rewrite map_app; apply Forall_app; now split|]. rewrite SU. split; [rewrite (relays_all _ _ _ _ RA), filter_app, NG, app_nil_r; reflexivity|].
  exists es, rest. split; [exact EH|]. split; [intros u Z; destruct (ZE u Z) as (-> & B); rewrite app_nil_r; split; [symmetry; exact (relays_length _ _ _ _ RA)|exact B]|].
  intros p t u NX. assert (PL : (p < length xs1)%nat).
  { destruct (Nat.lt_ge_cases p (length xs1)) as [L|L]; [exact L|]. exfalso. rewrite nth_error_app2 in NX by exact L. apply nth_error_In in NX.
    assert (I : In (t, Relayed (Some (Ok u))) (filter relay_gives xs2)) by (apply filter_In; now split). rewrite NG in I. destruct I. }
  rewrite nth_error_app1 in NX by exact PL. replace (relay_place p (xs1 ++ xs2)) with (relay_place p xs1) by (unfold relay_place; rewrite firstn_app; replace (p - length xs1)%nat with 0%nat by lia; now rewrite firstn_O, app_nil_r).
  exact (relays_at _ _ _ _ RA p t u NX).
Qed.
(** ** What all of them give *)
Lemma merge_gave js : merge_good js -> forall w0, let '(rs, outs, w) := merge cd D E k cfg js w0 in
  awaited_ops cd E k (map fst outs) w0 = (outs, w) /\ Forall op_good (map fst outs) /\ streams (map settled outs) /\ length rs = length js /\
  length (succeeded false (map settled outs)) = merge_count rs /\
  forall i l s xs z, nth_error js i = Some (l, s) -> nth_error rs i = Some (xs, z) ->
  exists es rest, entries_here cd (past (s_pos s) (s_data s)) es rest /\ (forall u, z = Some (Ok u) -> length xs = length es /\ exists b, rest = le 4 0x02014b50 ++ b) /\
    gives_at l es xs (merge_place rs i) (succeeded false (map settled outs)).
Proof.
  induction js as [|[l s] js IH]; intros G w0; cbn [merge].
  - split; [reflexivity|]. split; [constructor|]. split; [constructor|]. split; [reflexivity|]. split; [reflexivity|]. intros [|i] l s xs z N; discriminate N.
  - apply Forall_cons_iff in G as [[G1 L1] G]. cbn [fst snd] in *. destruct (relay cd D E k cfg l s w0) as [[[xs z] o] w1] eqn:R.
    destruct (relay_gave l s w0 xs z o w1 G1 L1 R) as (A1 & A2 & A3 & A4 & es & rest & A5 & A6 & A7). specialize (IH G w1). destruct (merge cd D E k cfg js w1) as [[rs os] w2]. destruct IH as (B1 & B2 & B3 & B4 & B5 & B6).
    split; [rewrite map_app, ops_app, A1, B1; reflexivity|]. split; [rewrite map_app; apply Forall_app; now split|]. split; [rewrite map_app; apply Forall_app; now split|]. split; [cbn [length]; now rewrite B4|].
    rewrite map_app, (streams_app _ _ A3). split; [rewrite app_length, A4, B5; reflexivity|]. intros i l0 s0 xs0 z0 NJ NR. destruct i as [|i]; cbn [nth_error] in NJ, NR.
    + injection NJ as <- <-. injection NR as <- <-. exists es, rest. split; [exact A5|]. split; [exact A6|]. intros p t u NX. destruct (A7 p t u NX) as (y & e & data & body & Q1 & Q2 & Q3 & Q4 & Q5). exists y, e, data, body.
      repeat (split; [assumption|]). change (merge_place ((xs, z) :: rs) 0 p) with (relay_place p xs). rewrite nth_error_app1 by (apply nth_error_Some; rewrite Q5; discriminate). exact Q5.
    + destruct (B6 i l0 s0 xs0 z0 NJ NR) as (es0 & rest0 & C1 & C2 & C3). exists es0, rest0. split; [exact C1|]. split; [exact C2|]. intros p t u NX. destruct (C3 p t u NX) as (y & e & data & body & Q1 & Q2 & Q3 & Q4 & Q5).
      exists y, e, data, body. repeat (split; [assumption|]). replace (merge_place ((xs, z) :: rs) (S i) p) with (length (filter relay_gives xs) + merge_place rs i p)%nat
        by (unfold merge_place, merge_count; cbn [firstn map list_sum fold_right nth_error fst]; unfold list_sum; lia).
      rewrite nth_error_app2 by lia. rewrite A4. replace (length (filter relay_gives xs) + merge_place rs i p - length (filter relay_gives xs))%nat with (merge_place rs i p) by lia. exact Q5.
Qed.
Lemma merge_onto rs : forall j, (j < merge_count rs)%nat -> exists i xs z p t, nth_error rs i = Some (xs, z) /\ nth_error xs p = Some (t, Relayed (Some (Ok tt))) /\ merge_place rs i p = j.
Proof.
  induction rs as [|[xs z] rs IH]; intros j L; [cbn in L; lia|]. unfold merge_count in L. cbn [map fst list_sum fold_right] in L. destruct (Nat.lt_ge_cases j (length (filter relay_gives xs))) as [Q|Q].
  - destruct (place_onto xs j ltac:(unfold relay_place; now rewrite firstn_all)) as (p & t & N & P). exists 0%nat, xs, z, p, t. split; [reflexivity|]. split; [exact N|exact P].
  - destruct (IH (j - length (filter relay_gives xs))%nat ltac:(unfold merge_count, list_sum in *; lia)) as (i & xs0 & z0 & p & t & N1 & N2 & P). exists (S i), xs0, z0, p, t. split; [exact N1|]. split; [exact N2|].
    replace (merge_place ((xs, z) :: rs) (S i) p) with (length (filter relay_gives xs) + merge_place rs i p)%nat by (unfold merge_place, merge_count; cbn [firstn map list_sum fold_right nth_error fst]; unfold list_sum; lia). lia.
Qed.
Lemma merged_back eview D2 view2 inv2 sched js rs outs w w' : codec_ok cd -> engine_ok cd E eview -> decoder_ok cd D2 view2 inv2 -> decoder_lively D2 ->
  merge_good js -> merge cd D E k cfg js (zw_new sched) = (rs, outs, w) -> zw_close w = (Ok tt, w') ->
  made cd (map settled outs) (w_bytes w) (w_zip64 w') (w_bytes w') /\ length rs = length js /\
  (unambiguous cd cfg (map fst (map settled outs)) (map settled outs) (w_zip64 w') (w_bytes w') ->
   exists f2, mem_new cfg (w_bytes w') = Ok {| m_data := w_bytes w'; m_file := f2 |} /\ length (f_entries f2) = merge_count rs /\
   (forall j, (j < merge_count rs)%nat -> exists i xs z p t, nth_error rs i = Some (xs, z) /\ nth_error xs p = Some (t, Relayed (Some (Ok tt))) /\ merge_place rs i p = j) /\
   forall i l s xs z, nth_error js i = Some (l, s) -> nth_error rs i = Some (xs, z) ->
   exists es rest, entries_here cd (past (s_pos s) (s_data s)) es rest /\ (forall u, z = Some (Ok u) -> length xs = length es /\ exists b, rest = le 4 0x02014b50 ++ b) /\
   forall p t u, nth_error xs p = Some (t, Relayed (Some (Ok u))) ->
   exists y e data body st it, nth_error l p = Some y /\ nth_error es p = Some (t, data) /\ rp_as y t = Some e /\ fed_bytes body = data /\
     nth_error (f_entries f2) (merge_place rs i p) = Some st /\ leaves cd false (OpStream false e body true) it /\ as_written (w_bytes w') it st /\ texts_kept it st /\
     forall ns s2, s_data s2 = w_bytes w' -> Forall (fun n => 0 < n) ns -> (delays (s_sched s2) + length data < length ns)%nat ->
      d_read_entry D2 ns f2 (N.of_nat (merge_place rs i p)) s2 = Some (Ok data) \/
      exists c, In (RFail c) (s_sched s2) /\ d_read_entry D2 ns f2 (N.of_nat (merge_place rs i p)) s2 = Some (Err (UpstreamReadError (IoOther c)))).
Proof.
  intros CK EO OK2 LV2 G R C. pose proof (merge_gave js G (zw_new sched)) as H. rewrite R in H. destruct H as (O & GO & _ & LR & LS & H).
  pose proof (by_awaits cd E eview k sched _ _ w w' EO GO O C) as M. split; [exact M|]. split; [exact LR|]. intro U.
  destruct (made_back cd cfg (cursor (w_bytes w')) _ _ _ _ CK M U eq_refl (Forall_nil _)) as (f2 & _ & MN & _ & _ & FE & RD). exists f2. split; [exact MN|].
  split; [rewrite <- LS; clear -FE; induction FE; cbn [length]; congruence|]. split; [exact (merge_onto rs)|]. intros i l s xs z NJ NR. destruct (H i l s xs z NJ NR) as (es & rest & H1 & H2 & H3).
  exists es, rest. split; [exact H1|]. split; [exact H2|]. intros p t u NX. destruct (H3 p t u NX) as (y & e & data & body & NL & NE & AS & FB & NT).
  assert (X : exists st, nth_error (f_entries f2) (merge_place rs i p) = Some st /\ exists it, leaves cd false (OpStream false e body true) it /\ as_written (w_bytes w') it st /\ texts_kept it st).
  { clear -FE NT. revert NT. generalize (merge_place rs i p) as m. induction FE as [|x st la lb (it & LI & AW & TK) FE IH]; intros m NT; [destruct m; discriminate NT|].
    destruct m as [|m]; [injection NT as ->; exists st; split; [reflexivity|]; now exists it|exact (IH m NT)]. }
  destruct X as (st & NS & it & LI & AW & TK). exists y, e, data, body, st, it. repeat (split; [assumption|]). intros ns s2 SD FN L.
  destruct (RD (N.of_nat (merge_place rs i p)) false _ data ltac:(rewrite Nat2N.id; exact NT) ltac:(rewrite <- FB; constructor) (not_exchanged cd e body false eq_refl)) as (RD1 & _).
  rewrite <- SD in RD1. exact (entry_or cd D2 view2 inv2 OK2 LV2 ns f2 (N.of_nat (merge_place rs i p)) s2 data FN RD1 L).
Qed.

(** ** When nothing is in the way *)
Context (LV : decoder_lively D).
Lemma merge_ends sched js ess : Forall2 (merge_patient cd k sched) js ess -> merge_good js -> Forall (fun j => Forall relay_handy (fst j)) js -> forall w0, let '(rs, outs, w) := merge cd D E k cfg js w0 in
  Forall handy (map fst outs) /\ Forall (SpecLively.patient k sched) (map fst outs) /\
  (Forall (fun x => snd x = Some (Ok tt)) outs -> Forall2 (fun r x => r = (relay_ideal (snd x) (fst (fst x)), Some (Ok tt))) rs (List.combine js ess)).
Proof.
  induction 1 as [|[l s] es js ess (P1 & P2 & P3 & P4 & P5) P IH]; intros G HA w0; cbn [merge].
  - split; [constructor|]. split; [constructor|]. intros _. constructor.
  - apply Forall_cons_iff in G as [[G1 L1] G], HA as [H1 HA]. cbn [fst snd] in *. destruct (relay cd D E k cfg l s w0) as [[[xs z] o] w1] eqn:R.
    destruct (relay_ends cd D view inv OK E k cfg LV l s w0 xs z o w1 es G1 L1 P1 P2 P3 R) as [(-> & parts & -> & RA)|(c & I & _)].
    2: { unfold nofail in P4. rewrite Forall_forall in P4. specialize (P4 _ I). discriminate P4. }
    destruct (relay_told cd D view inv OK E k cfg l s w0 xs _ _ w1 G1 L1 R) as (_ & GO & _). pose proof (parts_handy _ _ _ _ RA H1 GO) as HP.
    assert (PA : Forall (SpecLively.patient k sched) (map fst (concat parts))).
    { clear -RA P5. revert P5. induction RA as [|y l z es x xs part parts (_ & A) RA IH]; intro KB; [constructor|]. apply Forall_cons_iff in KB as [K1 KB]. cbn [concat]. rewrite map_app. apply Forall_app.
      split; [|exact (IH KB)]. destruct (rp_as y (fst z)) as [e|]; destruct (snd x) as [|r|r|]; [destruct A| | |destruct A| |destruct A..].
      - destruct A as (body & FB & ->). constructor; [|constructor]. eapply fed_patient; [|exact K1]. now rewrite FB.
      - destruct A as (_ & body & closed & PX & ->). constructor; [|constructor]. eapply fed_patient; [|exact K1]. eapply prefix_length; eassumption.
      - subst part. constructor. }
    specialize (IH G HA w1). destruct (merge cd D E k cfg js w1) as [[rs os] w2]. destruct IH as (I1 & I2 & I3).
    split; [rewrite map_app; apply Forall_app; now split|]. split; [rewrite map_app; apply Forall_app; now split|]. intro OO. apply Forall_app in OO as [OO1 OO2]. cbn [List.combine]. constructor; [|exact (I3 OO2)]. cbn [fst snd]. f_equal.
    clear -RA OO1. revert OO1. induction RA as [|y l z es x xs part parts (FX & A) RA IH]; intro OO; [reflexivity|]. cbn [concat] in OO. apply Forall_app in OO as [O1 O2]. cbn [relay_ideal]. f_equal; [|exact (IH O2)].
    unfold relay_well. destruct x as [x1 x2]. cbn [fst snd] in *. subst x1. destruct (rp_as y (fst z)) as [e|]; destruct x2 as [|r|r|]; [destruct A| | |destruct A|reflexivity|destruct A..].
    + destruct A as (body & _ & ->). apply Forall_cons_iff in O1 as [O1 _]. cbn [snd] in O1. now subst.
    + destruct A as (NY & body & closed & _ & ->). apply Forall_cons_iff in O1 as [O1 _]. cbn [snd] in O1. now elim (NY tt).
Qed.
Lemma merge_done eview sched js ess rs outs w : enc_takes cd -> engine_ok cd E eview -> SpecLively.engine_lively cd E eview ->
  merge_good js -> Forall (fun j => Forall relay_handy (fst j)) js -> Forall2 (merge_patient cd k sched) js ess -> obliging sched -> merge cd D E k cfg js (zw_new sched) = (rs, outs, w) ->
  Forall2 (fun r x => r = (relay_ideal (snd x) (fst (fst x)), Some (Ok tt))) rs (List.combine js ess) /\ fst (zw_close w) = Ok tt.
Proof.
  intros ET EO EL G HA P OB R. pose proof (merge_ends sched js ess P G HA (zw_new sched)) as H. rewrite R in H. destruct H as (HP & PA & H).
  pose proof (merge_gave js G (zw_new sched)) as GV. rewrite R in GV. destruct GV as (O & _).
  destruct (all_awaited cd E eview k ET EO EL _ HP (zw_new sched) PA eq_refl OB) as (w1 & AW & CH). rewrite O in AW. injection AW as EO1 <-. split.
  - apply H. rewrite EO1. apply Forall_map. apply Forall_forall. reflexivity.
  - apply close_works.
    + exact (ChainFacts.chain_short _ _ _ _ CH ltac:(constructor)).
    + rewrite (ChainFacts.chain_force _ _ _ _ CH), map_map. cbn [fst]. rewrite map_id. now apply handy_not_no.
    + destruct (ChainFacts.chain_evol _ _ _ _ CH) as (_ & _ & _ & (u & U)). change (WriterFacts.w_sched (zw_new sched)) with sched in U. rewrite U in OB. now apply obliging_app in OB.
Qed.
(** ** Streams that break off *)
Lemma relay_fine sched l s w0 xs z outs w : Forall relay_good l -> Forall relay_handy l -> Forall (relay_awaits k sched) l -> len (s_data s) < 0x10000000000000000 -> relay cd D E k cfg l s w0 = (xs, z, outs, w) ->
  Forall handy (map fst outs) /\ Forall (SpecLively.patient k sched) (map fst outs).
Proof.
  intros G HA KB LD R. destruct (relay_told cd D view inv OK E k cfg l s _ _ z _ w G LD R) as (_ & GO & _).
  pose proof (relay_calls cd D view inv OK E k cfg l G s w0) as CA. rewrite R in CA. split; rewrite Forall_forall in *; intros o I; destruct (CA o I) as (y & z0 & e & body & closed & IY & AS & -> & LE).
  - destruct (HA y IY z0 e AS) as (ND & RM). split; [discriminate|]. split; [exact (GO _ I)|]. split; [exact ND|exact RM].
  - eapply fed_patient; [|exact (KB y IY)]. unfold len in LE. lia.
Qed.
Lemma merge_passes sched js ess : Forall2 (merge_begins cd) js ess -> merge_good js -> Forall (fun j => Forall relay_handy (fst j)) js -> Forall (fun j => Forall (relay_awaits k sched) (fst j)) js ->
  forall w0, let '(rs, outs, w) := merge cd D E k cfg js w0 in
  Forall handy (map fst outs) /\ Forall (SpecLively.patient k sched) (map fst outs) /\
  (Forall (fun x => snd x = Some (Ok tt)) outs -> Forall2 (fun r x => exists xs2, fst r = relay_ideal (snd x) (fst (fst x)) ++ xs2) rs (List.combine js ess)).
Proof.
  induction 1 as [|[l s] es js ess ((rest & P1) & P2 & P3 & P4) P IH]; intros G HA KA w0; cbn [merge].
  - split; [constructor|]. split; [constructor|]. intros _. constructor.
  - apply Forall_cons_iff in G as [[G1 L1] G], HA as [H1 HA], KA as [K1 KA]. cbn [fst snd] in *. destruct (relay cd D E k cfg l s w0) as [[[xs z] o] w1] eqn:R.
    destruct (relay_fine sched l s w0 xs z o w1 G1 H1 K1 L1 R) as [F1 F2].
    pose proof (relay_through cd D view inv OK E k cfg LV (s_data s) L1 _ es rest P1 _ l s w0 eq_refl eq_refl G1 (le_n _) P2 P3) as H. rewrite R in H.
    destruct H as [(xs1 & xs2 & parts & more & -> & -> & RA)|(r & _ & c & I & _)]; [|unfold nofail in P4; rewrite Forall_forall in P4; specialize (P4 _ I); discriminate P4].
    specialize (IH G HA KA w1). destruct (merge cd D E k cfg js w1) as [[rs os] w2]. destruct IH as (I1 & I2 & I3).
    split; [rewrite map_app; apply Forall_app; now split|]. split; [rewrite map_app; apply Forall_app; now split|]. intro OO. apply Forall_app in OO as [OO1 OO2]. cbn [List.combine]. constructor; [|exact (I3 OO2)]. cbn [fst snd].
    exists xs2. f_equal. apply Forall_app in OO1 as [OO1 _].
    clear -RA OO1. revert OO1. induction RA as [|y l z es x xs part parts (FX & A) RA IH]; intro OO; [reflexivity|]. cbn [concat] in OO. apply Forall_app in OO as [O1 O2]. cbn [relay_ideal]. f_equal; [|exact (IH O2)].
    unfold relay_well. destruct x as [x1 x2]. cbn [fst snd] in *. subst x1. destruct (rp_as y (fst z)) as [e|]; destruct x2 as [|r|r|]; [destruct A| | |destruct A|reflexivity|destruct A..].
    + destruct A as (body & _ & ->). apply Forall_cons_iff in O1 as [O1 _]. cbn [snd] in O1. now subst.
    + destruct A as (NY & body & closed & _ & ->). apply Forall_cons_iff in O1 as [O1 _]. cbn [snd] in O1. now elim (NY tt).
Qed.
Lemma merge_saves eview sched js ess rs outs w : enc_takes cd -> engine_ok cd E eview -> SpecLively.engine_lively cd E eview ->
  merge_good js -> Forall (fun j => Forall relay_handy (fst j)) js -> Forall (fun j => Forall (relay_awaits k sched) (fst j)) js -> Forall2 (merge_begins cd) js ess -> obliging sched ->
  merge cd D E k cfg js (zw_new sched) = (rs, outs, w) ->
  Forall2 (fun r x => exists xs2, fst r = relay_ideal (snd x) (fst (fst x)) ++ xs2) rs (List.combine js ess) /\ fst (zw_close w) = Ok tt.
Proof.
  intros ET EO EL G HA KA P OB R. pose proof (merge_passes sched js ess P G HA KA (zw_new sched)) as H. rewrite R in H. destruct H as (HP & PA & H).
  pose proof (merge_gave js G (zw_new sched)) as GV. rewrite R in GV. destruct GV as (O & _).
  destruct (all_awaited cd E eview k ET EO EL _ HP (zw_new sched) PA eq_refl OB) as (w1 & AW & CH). rewrite O in AW. injection AW as EO1 <-. split.
  - apply H. rewrite EO1. apply Forall_map. apply Forall_forall. reflexivity.
  - apply close_works.
    + exact (ChainFacts.chain_short _ _ _ _ CH ltac:(constructor)).
    + rewrite (ChainFacts.chain_force _ _ _ _ CH), map_map. cbn [fst]. rewrite map_id. now apply handy_not_no.
    + destruct (ChainFacts.chain_evol _ _ _ _ CH) as (_ & _ & _ & (u & U)). change (WriterFacts.w_sched (zw_new sched)) with sched in U. rewrite U in OB. now apply obliging_app in OB.
Qed.
End Merged.

(** ** The same archive over and over *)
Lemma goes_begins cd a all : goes cd a all -> forall es rest, entries_here cd a es rest -> forall p x, nth_error es p = Some x -> nth_error all p = Some x.
Proof.
  induction 1 as [l|l t m z out k tail xs R T Rd D E B G IH]; intros es rest H p x N.
  - inversion H as [|? ? ? ? ? ? H1 H2]; subst; [now destruct p|]. destruct H1 as [t m k R _ _ _ _ _]. exfalso.
    destruct R as [? ? ? ? ? ? ? ? ? ? m0 ? NU _]. apply nums_head in NU. change (N.of_nat 4) with 4 in NU. rewrite take_app_exact in NU by reflexivity. vm_compute in NU. discriminate NU.
  - destruct H as [l|l z' out' tail' es rest H G']; [now destruct p|].
    destruct (entry_once cd l z out tail z' out' tail' (entry_stands cd l z out tail t m k R T Rd D E B) H) as (<- & <- & <-). destruct p as [|p]; [exact N|]. exact (IH _ _ G' p x N).
Qed.
Lemma merged_again cd D view inv (E : engine cd) k cfg eview D2 view2 inv2 sched a all js rs outs w w' : decoder_ok cd D view inv -> codec_ok cd -> engine_ok cd E eview -> decoder_ok cd D2 view2 inv2 -> decoder_lively D2 ->
  merge_good js -> Forall (fun j => s_data (snd j) = a /\ s_pos (snd j) = 0) js -> goes cd a all -> merge cd D E k cfg js (zw_new sched) = (rs, outs, w) -> zw_close w = (Ok tt, w') ->
  unambiguous cd cfg (map fst (map settled outs)) (map settled outs) (w_zip64 w') (w_bytes w') ->
  exists f2, mem_new cfg (w_bytes w') = Ok {| m_data := w_bytes w'; m_file := f2 |} /\ length (f_entries f2) = merge_count rs /\
  forall i xs z p t u, nth_error rs i = Some (xs, z) -> nth_error xs p = Some (t, Relayed (Some (Ok u))) ->
  exists data, nth_error all p = Some (t, data) /\
    forall ns s2, s_data s2 = w_bytes w' -> Forall (fun n => 0 < n) ns -> (delays (s_sched s2) + length data < length ns)%nat ->
      d_read_entry D2 ns f2 (N.of_nat (merge_place rs i p)) s2 = Some (Ok data) \/
      exists c, In (RFail c) (s_sched s2) /\ d_read_entry D2 ns f2 (N.of_nat (merge_place rs i p)) s2 = Some (Err (UpstreamReadError (IoOther c))).
Proof.
  intros OK CK EO OK2 LV2 G SA GA R C U. destruct (merged_back cd D view inv OK E k cfg eview D2 view2 inv2 sched js rs outs w w' CK EO OK2 LV2 G R C) as (_ & LR & H).
  destruct (H U) as (f2 & MN & LF & _ & H'). clear H. exists f2. split; [exact MN|]. split; [exact LF|]. intros i xs z p t u NR NX.
  destruct (nth_error js i) as [[l s]|] eqn:NJ; [|apply nth_error_None in NJ; rewrite <- LR in NJ; apply nth_error_None in NJ; congruence].
  rewrite Forall_forall in SA. destruct (SA _ (nth_error_In _ _ NJ)) as [SD SP]. cbn [snd] in SD, SP. destruct (H' i l s xs z NJ NR) as (es & rest & EH & _ & K). rewrite SD, SP in EH. change (past 0 a) with a in EH.
  destruct (K p t u NX) as (y & e & data & body & st & it & _ & NE & _ & _ & _ & _ & _ & _ & RB). exists data. split; [exact (goes_begins cd a all GA es rest EH p _ NE)|exact RB].
Qed.
