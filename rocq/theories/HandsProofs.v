(** Proofs: archives that are copied from hand to hand. *)
From Verif Require Import Base BaseFacts Crc32 SpecFormat SpecCrc SpecArchive SpecRead SpecWrite SpecBlame SpecMade SpecExact SpecThrough SpecStream SpecSalvage SpecRemains ZString ZDate Headers ExtraField Entry IO IOFacts Reader
  EntryReader StreamReader Writer StreamPolls EncoderPolls AwaitedWrites SpecEncoder SpecLively SpecOrdinary LivelyProofs BlameProofs MadeProofs ReaderPolls SpecReadPolls DecoderPolls SpecDecoder DecoderProofs
  DecoderWalk SpecWalk DecoderWalkProofs ReadPollProofs SpecStrict ReaderFacts LfhFacts EntryProofs ReadProofs StreamProofs RoundTrip StreamWalk FrontProofs StrictProofs ExactProofs ExactTop ThroughProofs FaultWalkProofs
  SalvageProofs SpecAwake AwakeProofs SpecEndure EndureProofs RemainsProofs MadeRead Piped PipedProofs Relay SpecRelay RelayProofs SpecHands.
Import Writer SpecReadPolls DecoderProofs.
Arguments N.add : simpl never.

Lemma goes_same cd a all : goes cd a all -> forall es rest b, entries_here cd a es rest -> rest = le 4 0x02014b50 ++ b -> es = all.
Proof.
  assert (NOT : forall l0 t m b, read_top l0 t m -> l0 = le 4 0x02014b50 ++ b -> False).
  { intros l0 t m b R ->. destruct R as [? ? ? ? ? ? ? ? ? ? m0 ? NU _]. apply nums_head in NU. change (N.of_nat 4) with 4 in NU. rewrite take_app_exact in NU by reflexivity. vm_compute in NU. discriminate NU. }
  induction 1 as [l|l t m z out k tail xs R T Rd D E B G IH]; intros es rest b H Q.
  - inversion H as [|? ? ? ? ? ? H1 H2]; subst; [reflexivity|]. destruct H1 as [t m k R _ _ _ _ _]. elim (NOT _ _ _ _ R eq_refl).
  - destruct H as [l|l z' out' tail' es rest H G']; [elim (NOT _ _ _ _ R Q)|].
    destruct (entry_once cd l z out tail z' out' tail' (entry_stands cd l z out tail t m k R T Rd D E B) H) as (<- & <- & <-). f_equal. exact (IH _ _ _ G' Q).
Qed.
Lemma parts_well l es xs parts : relays_as l es xs parts -> Forall relay_packs l -> Forall all_well xs ->
  Forall (fun x => dropped (fst x) = false) (map settled (concat parts)) /\ Forall (fun x => worked (snd x) = true) (map settled (concat parts)) /\
  Forall2 (fun o x => en_compression (fst x) <> Stored /\ exists body, o = (false, OpStream false (fst x) body true) /\ fed_bytes body = snd x) (succeeded false (map settled (concat parts))) (wanted es l) /\
  (Exists (fun x => relay_gives x = true) xs -> wanted es l <> []) /\
  some_of (map snd (wanted es l)) (map snd es) /\ (Forall (fun x => relay_gives x = true) xs -> map snd (wanted es l) = map snd es).
Proof.
  induction 1 as [|y l z es x xs part parts (FX & A) RA IH]; intros PK AW.
  - split; [constructor|]. split; [constructor|]. split; [constructor|]. split; [intro X; inversion X|]. split; [constructor|reflexivity].
  - apply Forall_cons_iff in PK as [P1 PK], AW as [W1 AW]. destruct (IH PK AW) as (I1 & I2 & I3 & I4 & I5 & I6). clear IH RA. destruct x as [x1 x2]. unfold all_well in W1. cbn [fst snd] in *. subst x1.
    cbn [wanted concat map]. destruct (rp_as y (fst z)) as [e|] eqn:AS; destruct x2 as [|[[[]|?|?]|]|r|]; try contradiction.
    + destruct A as (body & FB & ->). cbn [app map settled fst snd succeeded writes_entry worked andb no_after].
      split; [now constructor|]. split; [now constructor|]. split; [constructor; [|exact I3]; split; [exact (P1 _ _ AS)|]; now exists body|]. split; [discriminate|]. split; [now constructor|].
      intro F. f_equal. apply I6. now apply Forall_cons_iff in F.
    + subst part. cbn [app]. split; [exact I1|]. split; [exact I2|]. split; [exact I3|]. split; [intro X; inversion X; subst; [discriminate|auto]|]. split; [now constructor|].
      intro F. apply Forall_cons_iff in F as [F _]. discriminate F.
Qed.
Lemma relay_leaves cd D view inv (E : engine cd) eview k cfg sched l s xs u outs w w' es : decoder_ok cd D view inv -> codec_ok cd -> engine_ok cd E eview ->
  Forall relay_good l -> Forall relay_packs l -> len (s_data s) < 0x10000000000000000 -> goes cd (past (s_pos s) (s_data s)) es ->
  relay cd D E k cfg l s (zw_new sched) = (xs, Some (Ok u), outs, w) -> Forall all_well xs -> Exists (fun x => relay_gives x = true) xs ->
  zw_close w = (Ok tt, w') -> len (w_bytes w') < 0x10000000000000000 ->
  (exists fs, goes cd (w_bytes w') fs /\ Forall2 kept_as (wanted es l) fs) /\
  some_of (map snd (wanted es l)) (map snd es) /\ (Forall (fun x => relay_gives x = true) xs -> map snd (wanted es l) = map snd es).
Proof.
  intros OK CK EO G PK LD GS R AW EX C LW. destruct (relay_told cd D view inv OK E k cfg l s _ _ _ _ w G LD R) as (O & GO & es' & rest & xs1 & xs2 & parts & lost & -> & -> & EH & RA & LO & ZE).
  destruct (ZE u eq_refl) as (-> & b & Q). pose proof (goes_same cd _ _ GS _ _ _ EH Q) as ->. rewrite app_nil_r in *.
  destruct LO as [[_ ->]|(x & X & _)]; [|discriminate X]. rewrite app_nil_r in *.
  pose proof (by_awaits cd E eview k sched _ _ w w' EO GO O C) as M.
  destruct (parts_well _ _ _ _ RA PK AW) as (DR & WK & F2 & NE & SO & AL). split; [|now split].
  assert (ST : Forall (fun x => streamable cd (snd x)) (succeeded false (map settled (concat parts)))).
  { clear -F2. induction F2 as [|o x os ws (NS & body & -> & _) F2 IH]; constructor; [exact NS|exact IH]. }
  destruct (made_goes cd _ _ _ _ CK M DR WK LW ST ltac:(intro Z; rewrite Z in F2; inversion F2; specialize (NE EX); congruence)) as (fs & GF & WA).
  exists fs. split; [exact GF|]. clear -F2 WA. revert fs WA. induction F2 as [|o x os ws (_ & body & -> & FB) F2 IH]; intros fs WA; inversion WA as [|? y ? fs' [(it & LV & SH) HO] WA']; subst; [constructor|]. constructor; [|exact (IH _ WA')].
  cbn [fst snd] in *. specialize (HO _ (holds_stream cd _ body)). inversion LV; subst. destruct SH as (S1 & S2 & S3 & _ & _ & S6). cbn [i_entry i_name] in *. unfold kept_as. now rewrite <- FB.
Qed.
Lemma some_of_refl {A} (l : list A) : some_of l l.
Proof. induction l; now constructor. Qed.
Lemma some_of_trans {A} (m n : list A) : some_of m n -> forall l, some_of l m -> some_of l n.
Proof. induction 1 as [|x m n H IH|x m n H IH]; intros l L; [exact L|constructor; now apply IH|]. inversion L; subst; constructor; now apply IH. Qed.
Lemma handed_holds cd all a es : codec_ok cd -> goes cd a es -> forall n b, handed cd all a n b ->
  exists fs, goes cd b fs /\ some_of (map snd fs) (map snd es) /\ (all = true -> map snd fs = map snd es) /\ (n <> 0%nat -> fs <> []).
Proof.
  intros CK G n b H. induction H as [|n b D view inv E eview k cfg sched l s xs u outs w w' H IH OK EO GD PK LB SD SP R AW EX AL C LW].
  - exists es. split; [exact G|]. split; [apply some_of_refl|]. split; [reflexivity|]. intro X. now elim X.
  - destruct IH as (fs & GF & SF & AF & _). subst b.
    destruct (relay_leaves cd D view inv E eview k cfg sched l s xs u outs w w' fs OK CK EO GD PK LB ltac:(now rewrite SP) R AW EX C LW) as ((gs & GG & KA) & SO & ALL).
    assert (MS : map snd gs = map snd (wanted fs l)) by (clear -KA; induction KA as [|x y ws gs (K & _) KA IH]; [reflexivity|]; cbn [map]; congruence).
    exists gs. split; [exact GG|]. rewrite MS. split; [exact (some_of_trans _ _ SF _ SO)|]. split; [intro T; rewrite (ALL (AL T)); exact (AF T)|].
    intros _ ->. destruct (relay_told cd D view inv OK E k cfg l s _ _ _ _ w GD LB R) as (_ & _ & es' & rest & xs1 & xs2 & parts & lost & -> & -> & EH & RA & _ & ZE).
    destruct (ZE u eq_refl) as (-> & b & Q). rewrite SP in EH. pose proof (goes_same cd _ _ GF _ _ _ EH Q) as ->. rewrite app_nil_r in *. destruct (parts_well _ _ _ _ RA PK AW) as (_ & _ & _ & NE & _). 
    apply (NE EX). now destruct (wanted fs l).
Qed.
(** when nothing is in the way *)
Lemma ideal_well es : forall l, Forall all_well (relay_ideal es l) /\ (wanted es l <> [] -> Exists (fun x => relay_gives x = true) (relay_ideal es l)).
Proof.
  induction es as [|z es IH]; intros l; [split; [constructor|intro X; now elim X]|]. destruct l as [|y l]; [split; [constructor|intro X; now elim X]|]. destruct (IH l) as [A B]. cbn [relay_ideal wanted].
  unfold relay_well. destruct (rp_as y (fst z)) as [e|]; (split; [constructor; [exact Logic.I|exact A]|]).
  - intros _. now apply Exists_cons_hd.
  - intro X. apply Exists_cons_tl. now apply B.
Qed.
Lemma hand_works cd D view inv (E : engine cd) eview k cfg sched l s xs z outs w es : decoder_ok cd D view inv -> decoder_lively D -> codec_ok cd -> engine_ok cd E eview -> SpecLively.engine_lively cd E eview ->
  Forall relay_good l -> Forall relay_handy l -> Forall relay_packs l -> len (s_data s) < 0x10000000000000000 -> goes cd (past (s_pos s) (s_data s)) es -> (length es < length l)%nat ->
  Forall2 (relay_patient (delays (s_sched s))) es (firstn (length es) l) -> nofail (s_sched s) -> obliging sched -> Forall (fun x => (SpecLively.waits sched + length (snd x) < k)%nat) es -> wanted es l <> [] ->
  relay cd D E k cfg l s (zw_new sched) = (xs, z, outs, w) ->
  z = Some (Ok tt) /\ exists w', zw_close w = (Ok tt, w') /\ (len (w_bytes w') < 0x10000000000000000 -> exists fs, goes cd (w_bytes w') fs /\ Forall2 kept_as (wanted es l) fs).
Proof.
  intros OK LV CK EO EL G HA PK LD GS LL PT NF OB KB WN R.
  destruct (relay_done cd D view inv OK E k cfg LV eview sched l s xs z outs w es (proj1 CK) EO EL G HA LD GS LL PT NF OB KB R) as (-> & -> & C). split; [reflexivity|].
  destruct (zw_close w) as [r w'] eqn:CL. cbn [fst] in C. subst r. exists w'. split; [reflexivity|]. intro LW. destruct (ideal_well es l) as [AW EX].
  exact (proj1 (relay_leaves cd D view inv E eview k cfg sched l s _ tt outs w w' es OK CK EO G PK LD GS R AW (EX WN) CL LW)).
Qed.
