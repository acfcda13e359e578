(** The DEFLATE decoder takes back nothing. *)
From Verif Require Import Base BaseFacts Headers SpecRead SpecWrite EntryReader SpecExact Inflate SpecAccept SpecSalvage SpecReadPolls SpecRemains InflateEnds.

(** the output is kept backwards *)
Definition onto (o o' : bytes) : Prop := exists r, o' = r ++ o.
Lemma onto_refl o : onto o o. Proof. now exists []. Qed.
Lemma onto_trans a b c : onto a b -> onto b c -> onto a c. Proof. intros (r & ->) (q & ->). exists (q ++ r). apply app_assoc. Qed.
Lemma copy_onto d : forall n out o, copy_back n d out = Some o -> onto out o.
Proof.
  induction n as [|n IH]; cbn [copy_back]; intros out o E; [injection E as <-; apply onto_refl|].
  destruct (nth_error out _) as [b|]; [|discriminate]. apply IH in E. eapply onto_trans; [|exact E]. now exists [b].
Qed.
Lemma codes_onto lit dist : forall f out s, onto out (fst (codes f lit dist out s)).
Proof.
  induction f as [|f IH]; cbn [codes]; intros out s; [apply onto_refl|].
  destruct (get_symbol lit 0 0 s) as [[x s1]|]; [|apply onto_refl]. destruct (x <? 256); [eapply onto_trans; [|apply IH]; now exists [n2b x]|].
  destruct (x =? 256); [apply onto_refl|]. destruct (get_coded length_codes (x - 257) s1) as [[n s2]|]; [|apply onto_refl].
  destruct (get_symbol dist 0 0 s2) as [[y s3]|]; [|apply onto_refl]. destruct (get_coded distance_codes y s3) as [[d s4]|]; [|apply onto_refl].
  destruct (copy_back _ _ out) as [o|] eqn:C; [|apply onto_refl]. eapply onto_trans; [exact (copy_onto _ _ _ _ C)|apply IH].
Qed.
Lemma codes_grow t lit dist k : forall f out s, onto (fst (codes f lit dist out s)) (fst (codes (f + k) lit dist out (more t s))).
Proof.
  induction f as [|f IH]; intros out s; [apply codes_onto|]. pose proof (codes_onto lit dist (S f + k) out (more t s)) as O. cbn [codes Nat.add] in *.
  destruct (get_symbol lit 0 0 s) as [[x s1]|] eqn:G; [|exact O]. rewrite (get_symbol_more t _ _ _ _ _ _ G) in *.
  destruct (x <? 256); [apply IH|]. destruct (x =? 256); [apply onto_refl|].
  destruct (get_coded length_codes (x - 257) s1) as [[n s2]|] eqn:G2; [|exact O]. rewrite (get_coded_more t _ _ _ _ _ G2) in *.
  destruct (get_symbol dist 0 0 s2) as [[y s3]|] eqn:G3; [|exact O]. rewrite (get_symbol_more t _ _ _ _ _ _ G3) in *.
  destruct (get_coded distance_codes y s3) as [[d s4]|] eqn:G4; [|exact O]. rewrite (get_coded_more t _ _ _ _ _ G4) in *.
  destruct (copy_back _ _ out); [apply IH|exact O].
Qed.
Lemma stored_onto out r : onto out (fst (stored_block out r)).
Proof.
  unfold stored_block. destruct r as [|a [|b [|c [|d r]]]]; try apply onto_refl. destruct (_ =? 65535); [|apply onto_refl]. now eexists.
Qed.
Lemma stored_grow t out r : onto (fst (stored_block out r)) (fst (stored_block out (r ++ t))).
Proof.
  pose proof (stored_onto out (r ++ t)) as O. unfold stored_block in *. destruct r as [|a [|b [|c [|d r]]]]; try exact O. cbn [app] in *. destruct (_ =? 65535); [|exact O]. cbn [fst].
  set (n := b2n a + 256 * b2n b) in *. rewrite take_firstn, (take_firstn n (r ++ t)), firstn_app, rev_app_distr, <- app_assoc. now eexists.
Qed.
Lemma blocks_onto : forall f out s, onto out (fst (blocks f out s)).
Proof.
  induction f as [|f IH]; cbn [blocks]; intros out s; [apply onto_refl|].
  destruct (get_bits 1 s) as [[v1 s1]|]; [|apply onto_refl]. destruct (get_bits 2 s1) as [[v2 s2]|]; [|apply onto_refl].
  match goal with |- onto _ (fst (let '(o, x) := ?m in _)) => assert (M : onto out (fst m)) end.
  { destruct (v2 =? 0); [apply stored_onto|]. destruct (v2 =? 1); [apply codes_onto|]. destruct (v2 =? 2); [|apply onto_refl].
    destruct (dynamic s2) as [[[a b] s4]|]; [apply codes_onto|apply onto_refl]. }
  match goal with |- onto _ (fst (let '(o, x) := ?m in _)) => destruct m as [o1 [s3|]]; [|exact M] end. cbn [fst] in M.
  destruct (v1 =? 1); [exact M|]. eapply onto_trans; [exact M|apply IH].
Qed.
Lemma blocks_grow t k : forall f out s, onto (fst (blocks f out s)) (fst (blocks (f + k) out (more t s))).
Proof.
  induction f as [|f IH]; intros out s; [apply blocks_onto|]. pose proof (blocks_onto (S f + k) out (more t s)) as O. cbn [blocks Nat.add] in *.
  destruct (get_bits 1 s) as [[v1 s1]|] eqn:B; [|exact O]. rewrite (get_bits_more t _ _ _ _ B) in *. clear B.
  destruct (get_bits 2 s1) as [[v2 s2]|] eqn:B; [|exact O]. rewrite (get_bits_more t _ _ _ _ B) in *. clear B O.
  assert (FU : forall s, exists k, (8 * S (length (snd (more t s))) = 8 * S (length (snd s)) + k)%nat).
  { intro q. exists (8 * length t)%nat. unfold more. cbn [snd]. rewrite app_length. lia. }
  match goal with |- onto (fst (let '(o, x) := ?m in _)) (fst (let '(o', x') := ?m' in _)) =>
    assert (M : onto (fst m) (fst m') /\ forall s3, snd m = Some s3 -> m' = (fst m, Some (more t s3))) end.
  { destruct (v2 =? 0).
    { split; [apply stored_grow|]. intros s3 H. apply stored_more. rewrite <- H. apply surjective_pairing. }
    destruct (v2 =? 1).
    { destruct (FU s2) as (j & ->). split; [apply codes_grow|]. intros s3 H. apply codes_more. rewrite <- H. apply surjective_pairing. }
    destruct (v2 =? 2); [|split; [apply onto_refl|discriminate]]. destruct (dynamic s2) as [[[a b] s4]|] eqn:D.
    { rewrite (dynamic_more t _ _ _ _ D). destruct (FU s4) as (j & ->). split; [apply codes_grow|]. intros s3 H. apply codes_more. rewrite <- H. apply surjective_pairing. }
    split; [|discriminate]. destruct (dynamic (more t s2)) as [[[a b] s4]|]; [apply codes_onto|apply onto_refl]. }
  match goal with |- onto (fst (let '(o, x) := ?m in _)) (fst (let '(o', x') := ?m' in _)) => destruct m as [o1 [s3|]]; destruct m' as [o2 [s4|]] end; destruct M as [M1 M2]; cbn [fst snd] in *.
  - specialize (M2 _ eq_refl). injection M2 as -> ->. destruct (v1 =? 1); [apply onto_refl|apply IH].
  - specialize (M2 _ eq_refl). discriminate M2.
  - destruct (v1 =? 1); [exact M1|]. eapply onto_trans; [exact M1|apply blocks_onto].
  - exact M1.
Qed.
Lemma flate_grows : dec_grows flate.
Proof.
  intros c w rest _. cbn [dec flate]. unfold inflate. replace (8 * S (length (w ++ rest)))%nat with (8 * S (length w) + 8 * length rest)%nat by (rewrite app_length; lia).
  pose proof (blocks_grow rest (8 * length rest) (8 * S (length w)) [] ([], w)) as (r & G). unfold more in G. cbn [fst snd] in G.
  destruct (blocks (8 * S (length w)) [] ([], w)) as [o x]. destruct (blocks _ [] ([], w ++ rest)) as [o' x']. cbn [fst] in *. subst o'.
  exists (rev r). now rewrite rev_app_distr.
Qed.
