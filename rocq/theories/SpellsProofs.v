(** Archives without a comment. *)
From Verif Require Import Base SpecFormat SpecCrc SpecUtf8 SpecArchive SpecRead SpecWrite SpecStrict SpecExact SpecTrouble SpecSpells ZString ZDate Headers ExtraField Entry
  IO Locator Reader EntryReader Writer BaseFacts IOFacts ReaderFacts RoundTrip StrictProofs ExactProofs TroubleProofs CloseFacts Zip64Proofs ArchiveProofs RecognizeProofs.

Definition end22 (count size offset : N) : bytes := end_record 0 0 count count size offset 0.
Lemma end22_eq c s o : end22 c s o = [x50; x4b; x05; x06; x00; x00; x00; x00; n2b c; n2b (c / 256); n2b c; n2b (c / 256);
  n2b s; n2b (s / 256); n2b (s / 65536); n2b (s / 16777216); n2b o; n2b (o / 256); n2b (o / 65536); n2b (o / 16777216); x00; x00].
Proof.
  unfold end22, end_record, record. cbn [map concat app fst snd le seq]. rewrite !N.div_1_r. reflexivity.
Qed.

Definition spells_at (i c s o : N) : Prop :=
  match i with
  | 10 => c = 0x4b50 /\ s mod 0x10000 = 0x0605
  | 11 => c / 0x100 = 0x50 /\ s mod 0x1000000 = 0x06054b
  | 12 => s = 0x06054b50
  | 13 => s / 0x100 = 0x054b50 /\ o mod 0x100 = 0x06
  | 14 => s / 0x10000 = 0x4b50 /\ o mod 0x10000 = 0x0605
  | 15 => s / 0x1000000 = 0x50 /\ o mod 0x1000000 = 0x06054b
  | 16 => o = 0x06054b50
  | _ => False
  end.
Lemma spells_some c s o : spells c s o <-> exists i, spells_at i c s o.
Proof.
  unfold spells. split.
  - intros [H|[H|[H|[H|[H|[H|H]]]]]]; [exists 10|exists 11|exists 12|exists 13|exists 14|exists 15|exists 16]; exact H.
  - intros (i & H). unfold spells_at in H. destruct i as [|p]; [contradiction|].
    repeat (match goal with q : positive |- _ => destruct q end; try contradiction); auto 10.
Qed.
Lemma second_end c s o i : c < 0x10000 -> s < 0x100000000 -> o < 0x100000000 -> 1 <= i ->
  (4 <= len (drop i (end22 c s o)) /\ from_le (take 4 (drop i (end22 c s o))) = 0x06054b50) <-> spells_at i c s o.
Proof.
  intros C S O I.
  destruct (N.le_gt_cases i 18) as [L|L].
  2:{ split.
      - rewrite len_drop. unfold end22. rewrite len_end. intros [H _]. lia.
      - unfold spells_at. intro H. destruct i as [|p]; [contradiction|]. repeat (match goal with q : positive |- _ => destruct q end; try contradiction; try lia). }
  rewrite end22_eq.
  assert (K : In i [1; 2; 3; 4; 5; 6; 7; 8; 9; 10; 11; 12; 13; 14; 15; 16; 17; 18]) by (cbn [In]; lia).
  assert (F4 : forall a b d e, from_le [a; b; d; e] = b2n a + 256 * (b2n b + 256 * (b2n d + 256 * b2n e))) by (intros; unfold from_le; rewrite N.mul_0_r, N.add_0_r; reflexivity).
  clear L I. cbn [In] in K.
  do 18 (destruct K as [<-|K];
    [rewrite drop_skipn, take_firstn; cbv [N.to_nat Pos.to_nat Pos.iter_op Init.Nat.add skipn firstn spells_at];
     rewrite F4, ?b2n_n2b; change (b2n x00) with 0; change (b2n x05) with 5; change (b2n x06) with 6; change (b2n x4b) with 75; change (b2n x50) with 80;
     clear F4; unfold len; cbn [length]; (split; [intros [_ H]; lia|intros H; split; [discriminate|lia]])|]).
  contradiction.
Qed.
