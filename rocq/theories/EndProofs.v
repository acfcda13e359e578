(** Proofs: the end of an archive as other readers look for it. *)
From Verif Require Import Base BaseFacts SpecFormat SpecArchive SpecRead SpecWrite SpecStrict SpecInterop HeadersFacts StrictProofs CloseFacts RecordFacts RoundTrip.

Lemma read_end_complete a l vs : read_end l = Some vs -> complete_end (a ++ l) (len a).
Proof.
  unfold read_end. destruct (nums _ l) as [[ws r]|] eqn:N; [|discriminate]. apply nums_inv in N as (bs & -> & <- & LB).
  destruct bs as [|b0 bs]; [discriminate|]. destruct bs as [|b1 bs]; [discriminate|]. destruct bs as [|b2 bs]; [discriminate|]. destruct bs as [|b3 bs]; [discriminate|].
  destruct bs as [|b4 bs]; [discriminate|]. destruct bs as [|b5 bs]; [discriminate|]. destruct bs as [|b6 bs]; [discriminate|]. destruct bs as [|b7 bs]; [discriminate|].
  destruct bs; [|discriminate]. cbn [map rev app] in *. destruct (N.eqb_spec (value b0) 0x06054b50) as [V|V]; [|discriminate].
  destruct (N.eqb_spec (value b7) (len r)) as [V7|V7]; [|discriminate]. intros _.
  injection LB as K0 K1 K2 K3 K4 K5 K6 K7. cbn [concat]. rewrite app_nil_r.
  exists a, (b1 ++ b2 ++ b3 ++ b4 ++ b5 ++ b6), r. split; [|split; [reflexivity|]; split].
  - rewrite <- (value_le 4 _ b0 V K0), <- (value_le 2 _ b7 V7 K7). now rewrite <- !app_assoc.
  - rewrite !len_app. unfold len. rewrite K1, K2, K3, K4, K5, K6. reflexivity.
  - assert (L : value b7 < 256 ^ 2) by (rewrite value_from; apply (from_le_lt 2); lia). change (256 ^ 2) with 65536 in L. lia.
Qed.
Lemma read_end64_complete l x c : read_end64 l = Some x -> complete_end64 (l ++ c) (len c).
Proof.
  unfold read_end64. destruct (text (len l - 76) l) as [[front m]|] eqn:T; [|discriminate]. apply text_inv in T as [-> T].
  destruct (nums _ m) as [[ws r]|] eqn:N; [|discriminate]. apply nums_inv in N as (bs & -> & <- & LB).
  destruct bs as [|c1 bs]; [discriminate|]. destruct bs as [|c2 bs]; [discriminate|]. destruct bs as [|c3 bs]; [discriminate|]. destruct bs as [|c4 bs]; [discriminate|].
  destruct bs as [|c5 bs]; [discriminate|]. destruct bs as [|c6 bs]; [discriminate|]. destruct bs as [|c7 bs]; [discriminate|]. destruct bs as [|c8 bs]; [discriminate|].
  destruct bs as [|c9 bs]; [discriminate|]. destruct bs as [|c10 bs]; [discriminate|]. destruct bs as [|c11 bs]; [discriminate|]. destruct bs as [|c12 bs]; [discriminate|].
  destruct bs as [|c13 bs]; [discriminate|]. destruct bs as [|c14 bs]; [discriminate|]. destruct bs; [|discriminate].
  cbn [map concat]. rewrite app_nil_r. destruct r; [|discriminate]. rewrite app_nil_r in *.
  match goal with |- (if ?c then _ else _) = _ -> _ => destruct c eqn:C; [|discriminate] end. intros _.
  repeat (apply andb_true_iff in C as [C ?]). repeat match goal with H : (_ =? _) = true |- _ => apply N.eqb_eq in H end.
  injection LB as K1 K2 K3 K4 K5 K6 K7 K8 K9 K10 K11 K12 K13 K14.
  exists front, (c3 ++ c4 ++ c5 ++ c6 ++ c7 ++ c8 ++ c9 ++ c10), c. split; [|split; [|reflexivity]].
  - rewrite <- (value_le 4 0x06064b50 c1) by assumption. rewrite <- (value_le 8 44 c2) by assumption. rewrite <- (value_le 4 0x07064b50 c11) by assumption.
    rewrite <- (value_le 4 0 c12) by assumption. rewrite <- (value_le 8 (len front) c13) by assumption. rewrite <- (value_le 4 1 c14) by assumption.
    now rewrite <- !app_assoc.
  - rewrite !len_app. unfold len. rewrite K3, K4, K5, K6, K7, K8, K9, K10. reflexivity.
Qed.
Lemma complete_signed64 d n : complete_end64 d n -> exists q, found_at (le 4 0x07064b50) d q /\ q + 20 + n = len d.
Proof.
  intros (a & b & c & -> & LB & LC). exists (len (a ++ le 4 0x06064b50 ++ le 8 44 ++ b)). split.
  - exists (a ++ le 4 0x06064b50 ++ le 8 44 ++ b). eexists. split; [|reflexivity]. now rewrite <- !app_assoc.
  - rewrite !len_app, !len_le. lia.
Qed.
Lemma complete_bound d q : complete_end d q -> q + 22 <= len d.
Proof. intros (a & b & c & -> & LA & LB & _). rewrite !len_app, !len_le. lia. Qed.
Lemma complete_signed d q : complete_end d q -> found_at (le 4 0x06054b50) d q.
Proof. intros (a & b & c & -> & L & _). eexists a, _. split; [reflexivity|exact L]. Qed.
Lemma end_clear_others z c d : end_clear z c d -> others_clear z c d.
Proof. intros (L & F & Z). split; [exact L|]. split; [intros q H; apply F; now apply complete_signed|].
  intros Z0 C. apply complete_signed64 in C as (q & FD & E). apply (Z Z0 q FD). lia. Qed.

Lemma directory_seen z n body mem cm : let d := body ++ mem ++ archive_end z n (len mem) (len body) cm in
  len d < 0x10000000000000000 -> n < 0x10000000000000000 -> others_clear z cm d -> (z = false -> n <= 0xFFFF /\ len mem <= 0xFFFFFFFF /\ len body <= 0xFFFFFFFF) ->
  directory_at d = Some (body ++ mem, (n, len mem, len body)).
Proof.
  intros d L LN (LC & CL & NL) SM. unfold archive_end in *.
  set (ending := end_record 0 0 (N.min n 0xFFFF) (N.min n 0xFFFF) (N.min (len mem) 0xFFFFFFFF) (N.min (len body) 0xFFFFFFFF) (len cm mod 0x10000) ++ cm) in *.
  set (front := body ++ mem ++ (if z then zip64_end 44 0x033F 46 0 0 n n (len mem) (len body) ++ zip64_end_locator 0 (len body + len mem) 1 else [])).
  assert (ED : d = front ++ ending) by (unfold d, front; now rewrite <- !app_assoc).
  assert (LE : len ending = 22 + len cm) by (unfold ending; rewrite len_app, len_end; reflexivity).
  assert (MD : len cm mod 0x10000 = len cm) by (apply N.mod_small; lia).
  assert (RE : read_end ending = Some [0; 0; N.min n 0xFFFF; N.min n 0xFFFF; N.min (len mem) 0xFFFFFFFF; N.min (len body) 0xFFFFFFFF; len cm]).
  { unfold ending. rewrite MD. apply end_parses; lia. }
  assert (LA : last_end d = Some (front, [0; 0; N.min n 0xFFFF; N.min n 0xFFFF; N.min (len mem) 0xFFFFFFFF; N.min (len body) 0xFFFFFFFF; len cm])).
  { rewrite ED. apply last_end_at; [|exact RE|].
    - intro N. rewrite N in LE. change (len (@nil byte)) with 0 in LE. lia.
    - intros a b EB NA NB. destruct (read_end b) as [vs|] eqn:R; [|reflexivity]. exfalso. apply (read_end_complete (front ++ a)) in R.
      assert (LQ : len (front ++ a) + 22 + len cm <= len d).
      { apply CL. rewrite ED, EB, app_assoc. exact R. }
      rewrite ED, !len_app, LE in LQ. destruct a; [easy|]. rewrite len_cons in LQ. lia. }
  unfold directory_at. rewrite LA, !N.eqb_refl. cbn [andb negb].
  assert (LD : len d = len front + 22 + len cm) by (rewrite ED, len_app, LE; lia).
  destruct z.
  - assert (EF : front = (body ++ mem) ++ zip64_end 44 0x033F 46 0 0 n n (len mem) (len body) ++ zip64_end_locator 0 (len (body ++ mem)) 1)
      by (unfold front; rewrite len_app, <- !app_assoc; reflexivity).
    rewrite EF, end64_parses; [|lia| | |]; try (rewrite ED, EF, !len_app in L; rewrite ?len_app; lia).
    now rewrite !fits_in_min.
  - destruct (SM eq_refl) as (S1 & S2 & S3). assert (EF : front = body ++ mem) by (unfold front; now rewrite app_nil_r).
    rewrite EF in *. destruct (read_end64 (body ++ mem)) as [x|] eqn:R.
    + exfalso. apply (NL eq_refl). rewrite <- LE, ED. now apply (read_end64_complete _ x).
    + now rewrite !N.min_l by lia.
Qed.
