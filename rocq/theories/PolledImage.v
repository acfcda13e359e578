(** What polled and awaited sessions leave, to the last byte and in the eyes of others. *)
From Verif Require Import Base BaseFacts SpecFormat SpecCrc SpecArchive SpecRead SpecWrite SpecStrict SpecAccept SpecLax SpecRepack SpecInterop SpecSize SpecImage SpecOrdinary SpecPolls SpecEncoder SpecLively
  ZString Headers ExtraField Entry IO IOFacts Reader EntryReader Writer WriterFacts HistFacts CloseFacts ChainFacts StreamPolls EncoderPolls EncoderProofs
  AwaitedWrites AllWork OrdinaryProofs LivelyProofs EndProofs StrictProofs LaxProofs ImageProofs InteropProofs.

Lemma visited_chain cd (E : engine cd) view sched l : enc_takes cd -> engine_ok cd E view ->
  let '(outs, r, w) := visited_archive cd E sched l in
  let xs := map counts_as outs in
  Forall (fun x => op_good (fst x)) xs -> Forall not_ignored outs -> r = Ok tt -> exists w0, ChainFacts.chain cd (zw_new sched) xs w0 /\ zw_close w0 = (Ok tt, w).
Proof.
  intros T OK. unfold visited_archive. pose proof (visits_chain cd E view T OK l (zw_new sched)) as H.
  destruct (run_visits cd E l (zw_new sched)) as [outs w0]. destruct (zw_close w0) as [r w] eqn:C. cbv zeta. intros G NI ->.
  rewrite Forall_map in G. exists w0. split; [exact (H G NI)|exact C].
Qed.

Lemma visited_image cd (E : engine cd) view sched l : enc_takes cd -> engine_ok cd E view ->
  let '(outs, r, w) := visited_archive cd E sched l in
  let xs := map counts_as outs in
  Forall (fun x => op_good (fst x)) xs -> Forall not_ignored outs -> Forall (fun x => dropped (fst x) = false) xs ->
  r = Ok tt -> Forall (fun x => worked (snd x) = true) xs -> len (w_bytes w) < 0x10000000000000000 ->
  (exists its, Forall2 (fun x it => leaves cd (fst x) (snd x) it) (succeeded false xs) its /\
     w_bytes w = archive_image (existsb asks_zip64 (map fst xs)) its (last_comment (map fst xs))) /\
  (Forall (fun x => as_it_is (fst x)) xs -> w_bytes w = session_image (map fst xs)).
Proof.
  intros T OK. pose proof (visited_chain cd E view sched l T OK) as H. destruct (visited_archive cd E sched l) as [[outs r] w]. cbv zeta in *.
  intros G NI DR R WK L. destruct (H G NI R) as (w0 & CN & CL). split; [exact (chain_exact cd sched _ w0 w CN CL G DR WK L)|].
  intro A. exact (chain_session cd sched _ w0 w CN CL G DR A WK L).
Qed.
Lemma visited_lax ver dsc cd (E : engine cd) view sched l : codec_ok cd -> engine_ok cd E view ->
  let '(outs, r, w) := visited_archive cd E sched l in
  let xs := map counts_as outs in
  Forall (fun x => op_good (fst x)) xs -> Forall not_ignored outs -> Forall (fun x => dropped (fst x) = false) xs ->
  r = Ok tt -> Forall (fun x => worked (snd x) = true) xs -> len (w_bytes w) <= 0xFFFFFFFF ->
  others_clear (w_zip64 w) (last_comment (map fst xs)) (w_bytes w) -> Forall (unexchanged cd) (succeeded false xs) ->
  (lax ver dsc cd (w_bytes w) = true <-> Forall (passes ver dsc cd) (succeeded false xs)).
Proof.
  intros K OK. pose proof (visited_chain cd E view sched l (proj1 K) OK) as H. destruct (visited_archive cd E sched l) as [[outs r] w]. cbv zeta in *.
  intros G NI DR R WK L EC UX. destruct (H G NI R) as (w0 & CN & CL). exact (chain_lax_small ver dsc cd sched _ w0 w K CN CL G DR WK L EC UX).
Qed.

Lemma awaited_chain cd (E : engine cd) view k sched l : enc_takes cd -> engine_ok cd E view -> engine_lively cd E view ->
  obliging sched -> Forall (patient k sched) l -> Forall handy l ->
  exists w0 w, awaited_archive cd E k sched l = (map (fun o => (o, Some (Ok tt))) l, Ok tt, w) /\
    ChainFacts.chain cd (zw_new sched) (map (fun o => (o, Ok tt)) l) w0 /\ zw_close w0 = (Ok tt, w).
Proof.
  intros T OK LV OB PA H. unfold awaited_archive.
  destruct (all_awaited cd E view k T OK LV l H (zw_new sched) PA eq_refl OB) as (w & -> & CH).
  assert (R : fst (zw_close w) = Ok tt).
  { apply close_works.
    - exact (chain_short _ _ _ _ CH ltac:(constructor)).
    - rewrite (chain_force _ _ _ _ CH), map_map. cbn [fst]. rewrite map_id. now apply handy_not_no.
    - destruct (chain_evol _ _ _ _ CH) as (_ & _ & _ & (u & U)). change (w_sched (zw_new sched)) with sched in U. rewrite U in OB. now apply obliging_app in OB. }
  destruct (zw_close w) as [r w'] eqn:CL. cbn [fst] in R. subst r. now exists w, w'.
Qed.
Lemma all_fst l : map fst (map (fun o : wop => (o, Ok tt : res unit)) l) = l.
Proof. rewrite map_map. apply map_id. Qed.
Lemma all_ok (l : list wop) : Forall (fun x => worked (snd x) = true) (map (fun o => (o, Ok tt)) l).
Proof. rewrite Forall_map. apply Forall_forall. reflexivity. Qed.
Lemma never_swapped cd l : Forall (unexchanged cd) (map (fun o => (false, o)) l).
Proof. rewrite Forall_map. apply Forall_forall. intros o _ it LV. unfold straight, i_swapped. inversion LV; subst; cbn; discriminate. Qed.

Lemma awaited_image cd (E : engine cd) view k sched l : enc_takes cd -> engine_ok cd E view -> engine_lively cd E view ->
  obliging sched -> Forall (patient k sched) l -> Forall handy l -> Forall (fun o => dropped o = false) l ->
  let '(outs, r, w) := awaited_archive cd E k sched l in
  outs = map (fun o => (o, Some (Ok tt))) l /\ r = Ok tt /\
  (len (w_bytes w) < 0x10000000000000000 ->
   (exists its, Forall2 (leaves cd false) (filter writes_entry l) its /\ w_bytes w = archive_image (existsb asks_zip64 l) its (last_comment l)) /\
   (Forall as_it_is l -> w_bytes w = session_image l)).
Proof.
  intros T OK LV OB PA H DR. destruct (awaited_chain cd E view k sched l T OK LV OB PA H) as (w0 & w & -> & CN & CL). split; [reflexivity|]. split; [reflexivity|]. intro L.
  assert (G : Forall (fun x => op_good (fst x)) (map (fun o => (o, Ok tt : res unit)) l)) by (rewrite Forall_map; now apply handy_good).
  assert (DR' : Forall (fun x => dropped (fst x) = false) (map (fun o => (o, Ok tt : res unit)) l)) by (now rewrite Forall_map).
  split.
  - destruct (chain_exact cd sched _ w0 w CN CL G DR' (all_ok l) L) as (its & F & B). rewrite all_fst in B. exists its. split; [|exact B].
    rewrite succeeded_all in F by exact H. clear -F. remember (filter writes_entry l) as os. clear Heqos. revert os F.
    induction its as [|it its IH]; intros [|o os] F; inversion F; subst; constructor; auto.
  - intro A. rewrite <- (all_fst l). refine (chain_session cd sched _ w0 w CN CL G DR' _ (all_ok l) L). now rewrite Forall_map.
Qed.

(** other readers *)
Lemma awaited_others cd (E : engine cd) view k sched l : codec_ok cd -> engine_ok cd E view -> engine_lively cd E view ->
  obliging sched -> Forall (patient k sched) l -> Forall handy l -> Forall ordinary_op l -> ordinary l -> filter writes_entry l <> [] ->
  let '(outs, r, w) := awaited_archive cd E k sched l in
  outs = map (fun o => (o, Some (Ok tt))) l /\ r = Ok tt /\
  (len (w_bytes w) < 0x5000000 ->
   (Forall (told_right cd) (map (fun o => (false, o)) (filter writes_entry l)) ->
    exists vs, sights cd (w_bytes w) = Some vs /\ Forall2 (seen_as cd) (filter writes_entry l) vs) /\
   (Forall (fun o => dropped o = false) l -> forall ver dsc,
    lax ver dsc cd (w_bytes w) = true <-> Forall (fun o => passes ver dsc cd (false, o)) (filter writes_entry l))).
Proof.
  intros K OK LV OB PA H OO ORD NE. destruct (awaited_chain cd E view k sched l (proj1 K) OK LV OB PA H) as (w0 & w & -> & CN & CL).
  split; [reflexivity|]. split; [reflexivity|]. intro LD.
  destruct (chain_shape _ _ _ _ _ CN CL ltac:(lia)) as (its & ms & SH). set (xs := map (fun o => (o, Ok tt)) l) in *.
  assert (ML : map fst xs = l) by apply all_fst. rewrite ML in SH.
  assert (SU : succeeded false xs = map (fun o => (false, o)) (filter writes_entry l)) by now apply succeeded_all.
  assert (TM : Forall (fun x => too_many (snd x) = false) xs) by (apply Forall_forall; intros x I; apply in_map_iff in I as (o & <- & _); reflexivity).
  destruct (shape_unambiguous _ {| overflow_checks := true; entry_mem_size := 1 |} _ _ _ _ _ _ _ SH ML TM ORD ltac:(cbn; lia) LD) as (U1 & U2 & U3 & U4 & _).
  { right. left. split; [|exact OO]. rewrite SU. now destruct (filter writes_entry l). }
  apply end_clear_others in U4. pose proof (never_swapped cd (filter writes_entry l)) as UX. rewrite <- SU in UX. split.
  - intro TR. rewrite <- SU in TR.
    destruct (shape_seen cd _ _ _ _ _ _ _ K SH U1 TM U3 U4 ltac:(right; lia) ltac:(left; lia) UX TR) as (vs & V1 & V2). exists vs. split; [exact V1|].
    rewrite SU in V2. clear -V2. remember (filter writes_entry l) as os. clear Heqos. revert os V2.
    induction vs as [|v vs IH]; intros [|o os] F; inversion F; subst; constructor; auto.
  - intros DR ver dsc. rewrite <- ML in U4.
    rewrite (chain_lax_small ver dsc cd sched xs w0 w K CN CL); try assumption; try lia.
    + rewrite SU, Forall_map. reflexivity.
    + unfold xs. rewrite Forall_map. now apply handy_good.
    + unfold xs. now rewrite Forall_map.
    + apply all_ok.
Qed.
