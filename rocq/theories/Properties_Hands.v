(** Property theorems: archives that are copied from hand to hand. *)
From Verif Require Import Base BaseFacts Crc32 SpecFormat SpecCrc SpecArchive SpecRead SpecWrite SpecEncoder SpecBlame SpecMade SpecLively SpecExact SpecThrough SpecStream SpecOrdinary SpecSalvage SpecRemains ZString Headers ExtraField Entry IO IOFacts
  Reader EntryReader StreamReader Writer StreamPolls EncoderPolls AwaitedWrites
  ReaderPolls SpecReadPolls GiveUp DecoderPolls SpecDecoder DecoderWalk SpecWalk SpecAwake SpecEndure
  Samples WriteSamples DecoderSamples AwakeSamples EncoderSamples Properties_Lively Properties_Ordinary Properties_Endure Properties_Through Properties_Remains Piped Properties_Piped Relay SpecRelay Properties_Relay SpecHands HandsProofs.
Import Writer SpecReadPolls Piped.

(** * C112. What is copied from hand to hand as a stream stays what it was. *)
(** One hand: if it came to the end and all went well, and the entries it made are compressed, the new archive can be gone through as a stream like the old one. There lie the entries that were wanted and no other,
    in order, under the names given, with the content they had. *)
Theorem C112_hand cd (D : decoder) view inv (E : engine cd) eview k cfg sched l s xs u outs w w' es : decoder_ok cd D view inv -> codec_ok cd -> engine_ok cd E eview ->
  Forall relay_good l -> Forall relay_packs l -> len (s_data s) < 0x10000000000000000 -> goes cd (past (s_pos s) (s_data s)) es ->
  relay cd D E k cfg l s (zw_new sched) = (xs, Some (Ok u), outs, w) -> Forall all_well xs -> Exists (fun x => relay_gives x = true) xs ->
  zw_close w = (Ok tt, w') -> len (w_bytes w') < 0x10000000000000000 ->
  (exists fs, goes cd (w_bytes w') fs /\ Forall2 kept_as (wanted es l) fs) /\
  some_of (map snd (wanted es l)) (map snd es) /\ (Forall (fun x => relay_gives x = true) xs -> map snd (wanted es l) = map snd es).
Proof. exact (relay_leaves cd D view inv E eview k cfg sched l s xs u outs w w' es). Qed.
Print Assumptions C112_hand.
(** Any number of hands, each with its own decoder, encoder, plans, source and sink. *)
Theorem C112_hands cd all a es n b : codec_ok cd -> goes cd a es -> handed cd all a n b ->
  exists fs, goes cd b fs /\ some_of (map snd fs) (map snd es) /\ (all = true -> map snd fs = map snd es) /\ (n <> 0%nat -> fs <> []).
Proof. exact (fun CK G => handed_holds cd all a es CK G n b). Qed.
Print Assumptions C112_hands.
(** And when nothing is in the way, each hand does so. *)
Theorem C112_works cd (D : decoder) view inv (E : engine cd) eview k cfg sched l s xs z outs w es : decoder_ok cd D view inv -> decoder_lively D -> codec_ok cd -> engine_ok cd E eview -> engine_lively cd E eview ->
  Forall relay_good l -> Forall relay_handy l -> Forall relay_packs l -> len (s_data s) < 0x10000000000000000 -> goes cd (past (s_pos s) (s_data s)) es -> (length es < length l)%nat ->
  Forall2 (relay_patient (delays (s_sched s))) es (firstn (length es) l) -> nofail (s_sched s) -> obliging sched -> Forall (fun x => (waits sched + length (snd x) < k)%nat) es -> wanted es l <> [] ->
  relay cd D E k cfg l s (zw_new sched) = (xs, z, outs, w) ->
  z = Some (Ok tt) /\ exists w', zw_close w = (Ok tt, w') /\ (len (w_bytes w') < 0x10000000000000000 -> exists fs, goes cd (w_bytes w') fs /\ Forall2 kept_as (wanted es l) fs).
Proof. exact (hand_works cd D view inv E eview k cfg sched l s xs z outs w es). Qed.
Print Assumptions C112_works.

Definition hand1 : list relay_plan := [takes_as entry2; takes_as entry3; goes_by].
Definition hand2 : list relay_plan := [takes_as entry3; takes_as entry2; goes_by].
Definition hand3 : list relay_plan := [goes_by; takes_as entry3; goes_by].
Definition passed_on (l : list relay_plan) (b : bytes) (sched : list wevent) : bytes :=
  let '(_, _, _, w) := relay toy biting (buffered toy) 20 cfg0 l (flaky b slowly) (zw_new sched) in w_bytes (snd (zw_close w)).
Lemma hands_good : Forall (fun l => Forall relay_good l /\ Forall relay_packs l) [hand1; hand2; hand3].
Proof.
  assert (F2 : entry_fine entry2) by (repeat constructor; cbn; discriminate). assert (F3 : entry_fine entry3) by (repeat constructor; cbn; discriminate).
  assert (T : forall e, entry_fine e -> relay_good (takes_as e)).
  { intros e F. split; [repeat constructor|]. split; [vm_compute; reflexivity|]. intros z e0 H. injection H as <-. exact F. }
  assert (B : relay_good goes_by) by (split; [constructor|]; split; [reflexivity|]; intros z e H; discriminate H).
  assert (P2 : relay_packs (takes_as entry2)) by (intros z e H; injection H as <-; discriminate).
  assert (P3 : relay_packs (takes_as entry3)) by (intros z e H; injection H as <-; discriminate).
  assert (PB : relay_packs goes_by) by (intros z e H; discriminate H). repeat (constructor; auto).
Qed.
Lemma handed_next all a n b l sched : handed toy all a n b -> Forall relay_good l -> Forall relay_packs l ->
  (let '(xs, z, _, w) := relay toy biting (buffered toy) 20 cfg0 l (flaky b slowly) (zw_new sched) in
   z = Some (Ok tt) /\ Forall all_well xs /\ Exists (fun x => relay_gives x = true) xs /\ (all = true -> Forall (fun x => relay_gives x = true) xs) /\ fst (zw_close w) = Ok tt /\
   (len b <? 0x10000000000000000) = true /\ (len (w_bytes (snd (zw_close w))) <? 0x10000000000000000) = true) ->
  handed toy all a (S n) (passed_on l b sched).
Proof.
  intros H G P X. unfold passed_on. destruct (relay toy biting (buffered toy) 20 cfg0 l (flaky b slowly) (zw_new sched)) as [[[xs z] outs] w] eqn:R.
  destruct X as (-> & AW & EX & AL & C & LB & LW). destruct (zw_close w) as [r w'] eqn:CL. cbn [fst snd] in *. subst r.
  destruct (C101_met toy (proj1 toy_ok)) as [M1 _].
  eapply (handed_on toy all a n b biting bite_view bite_inv (buffered toy) (fun g => g) 20 cfg0 sched l (flaky b slowly) xs tt outs w w' H biting_ok M1 G P); try assumption; try reflexivity; now apply N.ltb_lt.
Qed.
(** Two hands that copy all, in other methods and under other names; then one that passes an entry by. *)
Example C112_case : codec_ok toy /\ (exists es, goes toy sample es /\ map snd es = [data1; [x78; x79]]) /\
  handed toy true sample 2 (passed_on hand2 (passed_on hand1 sample lags) []) /\
  handed toy false sample 2 (passed_on hand3 (passed_on hand1 sample lags) []) /\
  (exists fs, goes toy (passed_on hand2 (passed_on hand1 sample lags) []) fs /\ map snd fs = [data1; [x78; x79]]) /\
  reckon 20 hand3 (flaky (passed_on hand1 sample lags) slowly) [] = ([PassedBy; Relayed (Some (Ok tt))], Some (Ok tt), Ok tt, [Some (Ok [x78; x79])]).
Proof.
  pose proof hands_good as HG. apply Forall_cons_iff in HG as [[G1 P1] HG]. apply Forall_cons_iff in HG as [[G2 P2] HG]. apply Forall_cons_iff in HG as [[G3 P3] _].
  assert (GO : exists es, goes toy sample es /\ map snd es = [data1; [x78; x79]]) by (destruct C68_case as (_ & _ & _ & X); exact X).
  assert (ONE : forall all, handed toy all sample 1 (passed_on hand1 sample lags)).
  { intro all. apply handed_next; [apply handed_first|exact G1|exact P1|]. vm_compute. repeat split; repeat constructor. }
  assert (TWO : handed toy true sample 2 (passed_on hand2 (passed_on hand1 sample lags) [])).
  { apply handed_next; [apply ONE|exact G2|exact P2|]. vm_compute. repeat split; repeat constructor. }
  split; [exact toy_ok|]. split; [exact GO|]. split; [exact TWO|]. split.
  { apply handed_next; [apply ONE|exact G3|exact P3|]. vm_compute. split; [reflexivity|]. split; [repeat constructor|]. split; [apply Exists_cons_tl; now constructor|]. split; [discriminate|]. repeat split; reflexivity. }
  split; [|vm_compute; reflexivity]. destruct GO as (es & GO & MS). destruct (C112_hands toy true sample es 2 _ toy_ok GO TWO) as (fs & GF & _ & EQ & _). exists fs. split; [exact GF|]. now rewrite (EQ eq_refl).
Qed.
(** what [C112_works] asks for *)
Example C112_case2 : decoder_ok toy biting bite_view bite_inv /\ decoder_lively biting /\ engine_ok toy (buffered toy) (fun g => g) /\ engine_lively toy (buffered toy) (fun g => g) /\
  Forall relay_good hand1 /\ Forall relay_handy hand1 /\ Forall relay_packs hand1 /\ len sample < 0x10000000000000000 /\ nofail slowly /\ obliging lags /\
  exists es, goes toy sample es /\ (length es < length hand1)%nat /\ Forall2 (relay_patient (delays slowly)) es (firstn (length es) hand1) /\ Forall (fun x => (waits lags + length (snd x) < 20)%nat) es /\ wanted es hand1 <> [].
Proof.
  split; [exact biting_ok|]. split; [exact biting_lively|]. destruct (C101_met toy (proj1 toy_ok)) as [M1 M2]. split; [exact M1|]. split; [exact M2|].
  pose proof hands_good as HG. apply Forall_cons_iff in HG as [[G1 P1] _]. split; [exact G1|]. split.
  { assert (R2 : roomy entry2) by (unfold roomy; vm_compute; repeat split; discriminate). constructor; [intros z e H; injection H as <-; split; [discriminate|exact R2]|].
    constructor; [intros z e H; injection H as <-; split; [discriminate|exact roomy3]|]. constructor; [intros z e H; discriminate H|constructor]. }
  split; [exact P1|]. split; [vm_compute; reflexivity|]. split; [repeat constructor|]. split; [repeat constructor; discriminate|].
  destruct C68_case as (_ & _ & _ & es & GO & MS). exists es. split; [exact GO|]. destruct es as [|[z1 d1] [|[z2 d2] [|]]]; try discriminate MS. cbn [map snd] in MS. injection MS as -> ->.
  split; [cbn [length hand1]; lia|]. split; [repeat constructor; cbn; lia|]. split; [repeat constructor; cbn; lia|]. discriminate.
Qed.
(** Entries that were streamed without compression are refused by the next hand, and it says so. *)
Example C112_case3 : reckon 20 hand2 (flaky (passed_on plans sample lags) slowly) [] = ([Relayed (Some (Ok tt))], Some (Err (FeatureNotSupported FStreamStored)), Ok tt, [Some (Ok data1)]).
Proof. vm_compute. reflexivity. Qed.
