(** Proofs: what an archive that was cut short still gives. *)
From Verif Require Import Base BaseFacts SpecFormat SpecArchive SpecRead SpecWrite SpecStream SpecStrict SpecExact SpecThrough SpecTrouble SpecSalvage ZString Headers HeadersFacts ExtraField
  Entry IO IOFacts Reader EntryReader EntryReaderFacts EntryProofs ReadProofs StreamReader StreamProofs Writer StreamWalk FrontProofs StrictProofs AcceptProofs ExactProofs ExactTop TroubleProofs ThroughProofs.
Arguments N.mul : simpl never.
Arguments N.add : simpl never.
Arguments N.sub : simpl never.
Arguments N.min : simpl never.

(** ** A header, whole or cut *)
Lemma some_left {A} (l : list A) : l <> [] -> 0 < len l.
Proof. destruct l; [congruence|]. rewrite len_cons. lia. Qed.
Lemma left_some {A} (l : list A) : 0 < len l -> l <> [].
Proof. intros H ->. cbn in H. lia. Qed.
Lemma top_split l t m : read_top l t m -> m <> [] ->
  exists h, l = h ++ m /\ 30 <= len h /\ (forall x, read_top (h ++ x) t x) /\
  forall j t' m', j < len h -> read_top (take j h) t' m' -> m' = [] /\ tp_method t' = tp_method t /\ tp_flags t' = tp_flags t.
Proof.
  destruct 1 as [needed flags method time date crc cs us nl xl m0 xs N F]. intro M. apply some_left in M. rewrite !len_past in M.
  pose proof (nums_fs _ _ _ _ N) as (_ & E & W). set (ks := [4; 2; 2; 2; 2; 2; 4; 4; 4; 2; 2]%nat) in *.
  set (vs := [0x04034b50; needed; flags; method; time; date; crc; cs; us; nl; xl]) in *. set (rc := record (List.combine ks vs)) in *.
  assert (LR : len rc = 30) by reflexivity.
  assert (NU : forall x, nums ks (rc ++ x) = Some (vs, x)) by (intro x; apply (nums_at ks vs (List.combine ks vs) (rc ++ x) x); auto).
  exists (rc ++ take nl m0 ++ take xl (drop nl m0)).
  assert (L1 : len (take nl m0) = nl) by (rewrite len_take; lia). assert (L2 : len (take xl (drop nl m0)) = xl) by (rewrite len_take, len_drop; lia).
  split; [|split; [|split]].
  - rewrite !past_drop, E, <- !app_assoc. f_equal. now rewrite !take_drop.
  - rewrite len_app. lia.
  - intro x. rewrite <- !app_assoc.
    pose proof (top_here (rc ++ take nl m0 ++ take xl (drop nl m0) ++ x) needed flags method time date crc cs us nl xl (take nl m0 ++ take xl (drop nl m0) ++ x) xs (NU _)) as T.
    rewrite !past_drop, !upto_take in *. rewrite (drop_app_exact nl _ _ L1), (take_app_exact xl _ _ L2), (drop_app_exact xl _ _ L2), (take_app_exact nl _ _ L1) in T. exact (T F).
  - intros j t' m' J R. rewrite !len_app in J.
    inversion R as [needed' flags' method' time' date' crc' cs' us' nl' xl' m0' xs' N' F' T' Q]. subst t' m'. cbn [tp_method tp_flags].
    pose proof (nums_long _ _ _ _ N') as LN. change (widths_of _) with 30 in LN. rewrite len_take in LN.
    assert (SP : take j (rc ++ take nl m0 ++ take xl (drop nl m0)) = rc ++ take (j - 30) (take nl m0 ++ take xl (drop nl m0))).
    { rewrite <- (take_drop 30 (take j _)), take_take, drop_take. f_equal.
      - rewrite N.min_l by lia. now apply take_app_exact.
      - now rewrite (drop_app_exact 30 _ _ LR). }
    rewrite SP in N'. fold ks in N'. rewrite NU in N'. unfold vs in N'. injection N' as <- <- <- <- <- <- <- <- <- <- <-.
    split; [|split; reflexivity]. rewrite !past_drop. apply len_nil0. rewrite !len_drop, len_take, len_app. lia.
Qed.

(** ** An entry, whole *)
Lemma behind_inv y x : behind true y x ->
  (exists w, len w = 12 /\ y = le 4 0x08074b50 ++ w ++ x) \/ (exists w, len w = 12 /\ firstn 4 w <> le 4 0x08074b50 /\ y = w ++ x).
Proof. intro B. inversion B; subst; eauto. Qed.
Lemma behind_split desc l tail : behind desc l tail -> exists c, l = c ++ tail /\ (forall t, behind desc (c ++ t) t) /\
  (forall j x, j < len c -> ~ behind desc (take j c) x) /\ (desc = false -> c = []).
Proof.
  destruct 1 as [l|w l L|w l L F].
  - exists []. split; [reflexivity|]. split; [intro; constructor|]. split; [intros j x J; rewrite len_nil in J; lia|reflexivity].
  - exists (le 4 0x08074b50 ++ w). split; [now rewrite <- app_assoc|]. split; [intro t; rewrite <- app_assoc; now constructor|]. split; [|discriminate].
    intros j x J B. rewrite len_app, L in J. change (len (le 4 0x08074b50)) with 4 in J. apply behind_inv in B as [(w' & L' & E)|(w' & L' & F' & E)].
    + apply (f_equal len) in E. rewrite !len_app, len_take, L' in E. change (len (le 4 0x08074b50)) with 4 in E. lia.
    + apply F'. clear F'. assert (12 <= j).
      { apply (f_equal len) in E. rewrite len_app, len_take, L' in E. lia. }
      apply (f_equal (take 4)) in E. rewrite take_take, N.min_l in E by lia. rewrite (take_app_le 4 w') in E by lia. rewrite take_app_exact in E by reflexivity.
      change (firstn 4 w') with (firstn (N.to_nat 4) w'). now rewrite <- take_firstn.
  - exists w. split; [reflexivity|]. split; [intro t; now constructor|]. split; [|discriminate].
    intros j x J B. apply behind_inv in B as [(w' & L' & E)|(w' & L' & F' & E)]; apply (f_equal len) in E; rewrite ?len_app, len_take, L' in E; lia.
Qed.
Lemma local_within cd c w out k : dec_local cd -> decoded cd c w = (out, true) -> entry_span cd c w = Some k -> k <= len w.
Proof.
  intros LC D E. destruct c; [injection E as <-; lia|..]; cbn [decoded entry_span] in *; destruct (dec cd _ w) as [o [q|]] eqn:DE; try discriminate; cbn [snd] in E;
  injection E as <-; refine (proj1 (LC _ _ _ _ _ DE)); discriminate.
Qed.
(** the data of an entry alone, with anything behind it *)
Lemma data_split cd z m out k : dec_local cd -> (en_compression z = Stored -> en_data_descriptor z = false) ->
  decoded cd (en_compression z) (data_of z m) = (out, true) -> entry_span cd (en_compression z) (data_of z m) = Some k -> k < len m ->
  forall t, decoded cd (en_compression z) (data_of z (take k m ++ t)) = (out, true) /\ entry_span cd (en_compression z) (data_of z (take k m ++ t)) = Some k.
Proof.
  intros LC ST D E K t. destruct (en_compression z) eqn:C.
  { specialize (ST eq_refl). unfold data_of in *. rewrite ST in *. rewrite upto_take in *. cbn [decoded entry_span] in *. injection D as <-. injection E as <-.
    rewrite len_take in *. assert (CS : en_compressed_size z < len m) by lia. rewrite N.min_l by lia.
    assert (LT : len (take (en_compressed_size z) m) = en_compressed_size z) by (rewrite len_take; lia).
    rewrite (take_app_exact _ _ _ LT). now rewrite LT. }
  all: assert (LW : k <= len (data_of z m)) by (apply (local_within cd _ _ out k LC D E)).
  all: cbn [decoded entry_span] in *; destruct (dec cd _ (data_of z m)) as [o [q|]] eqn:DE; try discriminate; cbn [snd] in E; injection D as <-; injection E as ->.
  all: assert (R : forall rest, dec cd (en_compression z) (upto k (data_of z m) ++ rest) = (o, Some k)) by (rewrite C; refine (proj2 (LC _ _ _ _ _ DE)); discriminate).
  all: rewrite C in R.
  all: assert (X : exists rest, data_of z (take k m ++ t) = upto k (data_of z m) ++ rest).
  all: try (unfold data_of in *; destruct (en_data_descriptor z); [exists t; now rewrite upto_take|];
    rewrite !upto_take in *; rewrite len_take in LW; exists (take (en_compressed_size z - k) t); rewrite take_take, N.min_l by lia;
    assert (LT : len (take k m) = k) by (rewrite len_take; lia);
    rewrite <- (take_drop k (take (en_compressed_size z) (take k m ++ t))), take_take, drop_take, N.min_l by lia;
    now rewrite (take_app_exact _ _ _ LT), (drop_app_exact _ _ _ LT)).
  all: destruct X as (rest & ->); now rewrite R.
Qed.
Lemma readable_stored t z : top_tells t z -> top_readable t z -> en_compression z = Stored -> en_data_descriptor z = false.
Proof.
  intros T [_ R] C. destruct T as (_ & _ & _ & _ & _ & _ & _ & _ & _ & _ & _ & ->). destruct (N.testbit (tp_flags t) 3) eqn:B; [|reflexivity]. elim R. now split.
Qed.
Lemma behind_size desc l tail : behind desc l tail -> len tail <= len l.
Proof. destruct 1; rewrite ?len_app; lia. Qed.
Lemma entry_split cd l z out tail : dec_local cd -> entry_here cd l z out tail -> tail <> [] ->
  exists c, l = c ++ tail /\ 30 <= len c /\ forall t, entry_here cd (c ++ t) z out t.
Proof.
  intros LC [t m k R T Rd D E B] NE. apply some_left in NE. pose proof (behind_size _ _ _ B) as BS. rewrite len_past in BS.
  destruct (top_split _ _ _ R) as (h & -> & H30 & H & _); [apply left_some; lia|].
  destruct (behind_split _ _ _ B) as (dd & ED & HB & _ & _). rewrite past_drop in ED.
  assert (LT : len (take k m) = k) by (rewrite len_take; lia).
  exists (h ++ take k m ++ dd). split; [rewrite <- !app_assoc, <- ED; now rewrite take_drop|]. split; [rewrite len_app; lia|].
  intro x. rewrite <- !app_assoc. destruct (data_split cd z m out k LC (readable_stored _ _ T Rd) D E ltac:(lia) (dd ++ x)) as [D' E'].
  apply (entry_stands cd _ z out x t (take k m ++ dd ++ x) k); auto. rewrite past_drop, (drop_app_exact _ _ _ LT). apply HB.
Qed.

(** ** One step of the walk *)
Lemma step_takes cd cfg choice s d p z out t : len d < 0x10000000000000000 -> stands s d p -> entry_here cd (past p d) z out t ->
  exists rd s1 b s2, stream_next cfg s = (Ok (Some rd), s1) /\ rd_entry rd = z /\ leave cd (choice z) rd = Ok (b, s2) /\
    stands s2 d (s_pos s2) /\ past (s_pos s2) d = t /\ match choice z with None => b = out | Some _ => exists rest, out = b ++ rest end.
Proof.
  intros LD (<- & <- & N) [tp m k R T Rd D E B]. destruct (next_takes cfg s tp m z N R T Rd) as (rd & s1 & NX & RE & M).
  pose proof (next_nofail _ _ _ _ N NX) as N1. pose proof (next_reads _ _ _ _ NX) as (D1 & _ & _ & _ & _ & RD & RR). subst z. rewrite D1 in M.
  pose proof (leave_cases cd (choice (rd_entry rd)) s1 (rd_entry rd) (en_compression (rd_entry rd))
    (if en_data_descriptor (rd_entry rd) then 0xFFFFFFFFFFFFFFFF else en_compressed_size (rd_entry rd)) (rd_descriptor rd) N1) as K.
  assert (RID : {| rd_reader := rd_reader rd; rd_entry := rd_entry rd; rd_descriptor := rd_descriptor rd |} = rd) by now destruct rd.
  rewrite <- RR, RID in K. rewrite (whole_data s1 _ m) in K by (rewrite ?D1; assumption). cbv zeta in K. destruct K as [_ K].
  destruct (K out k D E) as (b & s' & S' & EQ & PK). rewrite RD in EQ. rewrite D1 in *.
  assert (B' : behind (en_data_descriptor (rd_entry rd)) (past (s_pos s1 + k) (s_data s)) t).
  { rewrite past_drop, <- drop_drop, <- past_drop, <- past_drop, M. exact B. }
  destruct (after_behind _ _ _ _ _ S' B') as (s2 & A2 & S2 & P2). rewrite A2 in EQ. exists rd, s1, b, s2. now repeat split; try apply S2.
Qed.
(** what a step that succeeds has read *)
Lemma step_reads cd cfg choice s d p rd s1 b s2 : len d < 0x10000000000000000 -> stands s d p -> stream_next cfg s = (Ok (Some rd), s1) ->
  leave cd (choice (rd_entry rd)) rd = Ok (b, s2) ->
  exists t m out k, read_top (past p d) t m /\ top_tells t (rd_entry rd) /\ top_readable t (rd_entry rd) /\
    decoded cd (en_compression (rd_entry rd)) (data_of (rd_entry rd) m) = (out, true) /\
    entry_span cd (en_compression (rd_entry rd)) (data_of (rd_entry rd) m) = Some k /\
    behind (en_data_descriptor (rd_entry rd)) (past k m) (past (s_pos s2) d) /\ stands s2 d (s_pos s2) /\ exists rest, out = b ++ rest.
Proof.
  intros LD (<- & <- & N) NX LV. pose proof (next_nofail _ _ _ _ N NX) as N1. pose proof (next_reads _ _ _ _ NX) as (D1 & t & R & T & Rd & RD & RR).
  pose proof (leave_cases cd (choice (rd_entry rd)) s1 (rd_entry rd) (en_compression (rd_entry rd))
    (if en_data_descriptor (rd_entry rd) then 0xFFFFFFFFFFFFFFFF else en_compressed_size (rd_entry rd)) (rd_descriptor rd) N1) as K.
  assert (RID : {| rd_reader := rd_reader rd; rd_entry := rd_entry rd; rd_descriptor := rd_descriptor rd |} = rd) by now destruct rd.
  rewrite <- RR, RID in K. rewrite (whole_data s1 _ _ ltac:(now rewrite D1) eq_refl) in K. cbv zeta in K.
  destruct (decoded cd (en_compression (rd_entry rd)) (data_of (rd_entry rd) (past (s_pos s1) (s_data s1)))) as [out ok] eqn:D. destruct K as [K0 K].
  destruct ok; [|destruct (K0 eq_refl) as (? & K1); rewrite LV in K1; discriminate K1].
  destruct (proj1 (span_sound cd (en_compression (rd_entry rd)) (data_of (rd_entry rd) (past (s_pos s1) (s_data s1)))) ltac:(now rewrite D)) as (k & E).
  destruct (K out k eq_refl E) as (b' & s' & S' & EQ & PK). rewrite LV in EQ. destruct (after_entry (rd_descriptor rd) s') as [s2'|?|?] eqn:AE; try discriminate EQ.
  cbn [rbind] in EQ. injection EQ as <- <-. rewrite D1 in *. destruct (behind_after _ _ _ _ _ S' AE) as [B S2].
  exists t, (past (s_pos s1) (s_data s)), out, k. split; [exact R|]. split; [exact T|]. split; [exact Rd|]. split; [exact D|]. split; [exact E|].
  split; [|split; [exact S2|]].
  - rewrite RD in B. rewrite !past_drop in *. now rewrite drop_drop.
  - destruct (choice (rd_entry rd)); [exact PK|subst b; exists []; now rewrite app_nil_r].
Qed.
(** nothing panics while an entry is read *)
Lemma leave_panics cd cfg choice s d p rd s1 q : len d < 0x10000000000000000 -> stands s d p -> stream_next cfg s = (Ok (Some rd), s1) ->
  leave cd (choice (rd_entry rd)) rd <> Panic q.
Proof.
  intros LD (<- & <- & N) NX LV. pose proof (next_nofail _ _ _ _ N NX) as N1. pose proof (next_reads _ _ _ _ NX) as (D1 & t & R & T & Rd & RD & RR).
  pose proof (leave_cases cd (choice (rd_entry rd)) s1 (rd_entry rd) (en_compression (rd_entry rd))
    (if en_data_descriptor (rd_entry rd) then 0xFFFFFFFFFFFFFFFF else en_compressed_size (rd_entry rd)) (rd_descriptor rd) N1) as K.
  assert (RID : {| rd_reader := rd_reader rd; rd_entry := rd_entry rd; rd_descriptor := rd_descriptor rd |} = rd) by now destruct rd.
  rewrite <- RR, RID in K. rewrite (whole_data s1 _ _ ltac:(now rewrite D1) eq_refl) in K. cbv zeta in K.
  set (w := data_of (rd_entry rd) (past (s_pos s1) (s_data s1))) in K. set (c := en_compression (rd_entry rd)) in K.
  destruct (decoded cd c w) as [out ok] eqn:D. destruct K as [K0 K]. destruct ok.
  2:{ destruct (K0 eq_refl) as (? & K1). rewrite LV in K1. discriminate K1. }
  destruct (proj1 (span_sound cd c w) ltac:(now rewrite D)) as (k & E). destruct (K out k eq_refl E) as (b & s' & S' & EQ & _). rewrite LV in EQ.
  destruct (after_entry (rd_descriptor rd) s') as [s2|?|?] eqn:AE; [discriminate EQ|discriminate EQ|now elim (after_panic _ _ _ (proj2 (proj2 S')) AE)].
Qed.

(** ** An entry, cut *)
Lemma tells_method t z t' z' : top_tells t z -> top_tells t' z' -> tp_method t' = tp_method t -> tp_flags t' = tp_flags t ->
  en_compression z' = en_compression z /\ en_data_descriptor z' = en_data_descriptor z.
Proof.
  intros (_ & _ & _ & M & _ & _ & _ & _ & _ & _ & _ & F) (_ & _ & _ & M' & _ & _ & _ & _ & _ & _ & _ & F') EM EF.
  rewrite EM, M in M'. injection M' as <-. now rewrite F', F, EF.
Qed.
(** a decoder that comes to an end early says the same of the whole *)
Lemma local_online cd c w out k rest : dec_local cd -> c <> Stored -> dec cd c w = (out, Some k) -> k <= len w /\ dec cd c (w ++ rest) = (out, Some k).
Proof.
  intros LC C D. destruct (LC _ _ _ _ C D) as [L R]. split; [exact L|]. rewrite upto_take in R. rewrite <- (take_drop k w), <- app_assoc. apply R.
Qed.
Lemma data_prefix z m j : exists rest, data_of z m = data_of z (take j m) ++ rest.
Proof.
  unfold data_of. destruct (en_data_descriptor z); [exists (drop j m); now rewrite take_drop|]. rewrite !upto_take, take_take.
  exists (drop (N.min (en_compressed_size z) j) (take (en_compressed_size z) m)).
  rewrite <- (take_drop (N.min (en_compressed_size z) j) (take (en_compressed_size z) m)) at 1. rewrite take_take. f_equal. f_equal. lia.
Qed.
Lemma decoded_more cd c w rest out k out' k' : dec_local cd -> c <> Stored -> decoded cd c w = (out, true) -> entry_span cd c w = Some k ->
  decoded cd c (w ++ rest) = (out', true) -> entry_span cd c (w ++ rest) = Some k' -> out = out' /\ k = k' /\ k <= len w.
Proof.
  intros LC C D E D' E'. assert (X : decoded cd c (w ++ rest) = (out, true) /\ entry_span cd c (w ++ rest) = Some k /\ k <= len w).
  { destruct c; [congruence|..]; cbn [decoded entry_span] in *; destruct (dec cd _ w) as [o [q|]] eqn:DE; try discriminate; cbn [snd] in *;
    injection D as <-; injection E as <-; (refine ((fun H => _) (local_online cd _ w o q rest LC C DE))); destruct H as [L ->]; now repeat split. }
  destruct X as (X1 & X2 & X3). rewrite X1 in D'. rewrite X2 in E'. injection D' as <-. injection E' as <-. now repeat split.
Qed.
Lemma entry_cut cd cfg choice s d p z out tail c j rd s1 b s2 : dec_local cd -> len d < 0x10000000000000000 -> stands s d p ->
  entry_here cd (c ++ tail) z out tail -> tail <> [] -> j < len c -> past p d = take j c ->
  stream_next cfg s = (Ok (Some rd), s1) -> leave cd (choice (rd_entry rd)) rd = Ok (b, s2) ->
  stands s2 d (s_pos s2) /\ past (s_pos s2) d = [] /\ remnant (c ++ tail) j (z, out) (rd_entry rd, b).
Proof.
  intros LC LD S [t m k R T Rd D E B] NE J P NX LV.
  destruct (step_reads cd cfg choice s d p rd s1 b s2 LD S NX LV) as (t' & m' & out' & k' & R' & T' & Rd' & D' & E' & B' & S2 & rest' & PB).
  split; [exact S2|]. apply some_left in NE. pose proof (behind_size _ _ _ B) as BS. rewrite len_past in BS.
  destruct (top_split _ _ _ R) as (h & EH & H30 & H & HC); [apply left_some; lia|].
  destruct (behind_split _ _ _ B) as (dd & ED & HB & HBC & HBN). rewrite past_drop in ED.
  assert (LM : len m = k + len dd + len tail).
  { apply (f_equal len) in ED. rewrite len_drop, len_app in ED. lia. }
  assert (LC' : len c = len h + k + len dd) by (apply (f_equal len) in EH; rewrite !len_app in EH; lia).
  assert (CE : take j c = take j (h ++ m)) by (rewrite <- EH; symmetry; apply take_app_le; lia). rewrite P, CE in R'.
  assert (RM : forall t2 m2, read_top (c ++ tail) t2 m2 -> m2 = m) by (intros t2 m2 R2; symmetry; exact (proj2 (top_unique _ _ _ R _ _ R2))).
  destruct (N.lt_ge_cases j (len h)) as [JH|JH].
  - rewrite take_app_le in R' by lia. destruct (HC _ _ _ JH R') as (-> & EM & EF). destruct (tells_method _ _ _ _ T T' EM EF) as [ZC ZD].
    rewrite past_drop, drop_nil in B'. split; [|split; cbn [fst snd]].
    + apply len_nil0. apply behind_size in B'. rewrite len_nil in B'. lia.
    + rewrite ZC in D', E'. assert (DN : data_of (rd_entry rd) [] = []) by (unfold data_of, upto; destruct (en_data_descriptor (rd_entry rd)); [reflexivity|apply firstn_nil]).
      rewrite DN in D', E'. destruct (en_compression z) eqn:C.
      { cbn [decoded] in D'. injection D' as <-. symmetry in PB. apply app_eq_nil in PB as [-> _]. exists out. reflexivity. }
      all: refine ((fun X => _) (decoded_more cd _ [] (data_of z m) out' k' out k LC _ D' E' D E)); [|discriminate]; destruct X as (<- & _); exists rest'; exact PB.
    + intros t2 m2 R2 L2. rewrite (RM _ _ R2) in L2. rewrite EH, len_app in L2. lia.
  - assert (TE : take j (h ++ m) = h ++ take (j - len h) m).
    { rewrite <- (take_drop (len h) (take j _)), take_take, drop_take, N.min_l by lia. now rewrite (take_app_exact (len h) h m eq_refl), (drop_app_exact (len h) h m eq_refl). }
    rewrite TE in R'. destruct (top_unique _ _ _ R' _ _ (H (take (j - len h) m))) as [-> ->].
    assert (RZ : rd_entry rd = z).
    { pose proof S as (SD & SP & SN). pose proof (H (take (j - len h) m)) as R2. rewrite <- TE, <- CE, <- P, <- SD, <- SP in R2.
      destruct (next_takes cfg s t _ z SN R2 T Rd) as (rd2 & s3 & NX2 & RE & _). rewrite NX in NX2. injection NX2 as <- _. exact RE. }
    rewrite RZ in *. set (i := j - len h) in *. destruct (data_prefix z m i) as (more & DP).
    assert (FALSE : en_compression z <> Stored -> False).
    { intro NS. rewrite DP in D, E. destruct (decoded_more cd _ _ _ _ _ _ _ LC NS D' E' D E) as (_ & -> & KL).
      assert (LI : len (data_of z (take i m)) <= i) by (unfold data_of; destruct (en_data_descriptor z); rewrite ?upto_take, !len_take; lia).
      apply (HBC (i - k) (past (s_pos s2) d)); [lia|]. rewrite past_drop, drop_take, ED, take_app_le in B' by lia. exact B'. }
    destruct (en_compression z) eqn:C.
    + assert (DS : en_data_descriptor z = false) by (apply (readable_stored t); assumption). rewrite DS in B'.
      unfold data_of in D, E, D', E', DP. rewrite DS in D, E, D', E', DP. cbn [decoded entry_span] in *. rewrite (HBN DS) in *. rewrite len_nil in *.
      injection D as <-. injection E as <-. injection D' as <-. injection E' as <-. rewrite !upto_take in *. rewrite !len_take in *.
      assert (PE : past (s_pos s2) d = past (N.min (en_compressed_size z) (N.min i (len m))) (take i m)) by (inversion B'; reflexivity). split; [|split; cbn [fst snd]].
      * rewrite PE. apply len_nil0. rewrite len_past, len_take. lia.
      * exists (rest' ++ more). rewrite app_assoc, <- PB. exact DP.
      * intros _ _ _ _. now split.
    + exfalso; apply FALSE; discriminate.
    + exfalso; apply FALSE; discriminate.
    + exfalso; apply FALSE; discriminate.
    + exfalso; apply FALSE; discriminate.
    + exfalso; apply FALSE; discriminate.
    + exfalso; apply FALSE; discriminate.
Qed.

(** ** The walk *)
Lemma next_short cfg s : nofail (s_sched s) -> len (past (s_pos s) (s_data s)) < 4 -> fst (stream_next cfg s) = Err (UpstreamReadError UnexpectedEof).
Proof. intros N L. apply (next_fails cfg s cut_short N). now constructor. Qed.
Lemma entries_snoc cd l z out tail xs rest : entry_here cd l z out tail -> entries_here cd tail xs rest -> entries_here cd l ((z, out) :: xs) rest.
Proof. intros. now apply (eh_entry cd l z out tail). Qed.
Lemma gather_cut cd cfg pl : dec_local cd -> forall l xs, goes cd l xs -> forall d s p j i fuel, len d < 0x10000000000000000 -> stands s d p -> past p d = upto j l ->
  len (upto j l) < 30 * N.of_nat fuel ->
  exists before after l' ys zs r, xs = before ++ after /\ entries_here cd l before l' /\ len l <= len l' + j /\
    gather cd cfg pl fuel i s = (ys ++ zs, r) /\ picked pl i before ys /\
    match after with
    | [] => zs = [] /\ r = if len l + 4 <=? j + len l' then Ok tt else Err (UpstreamReadError UnexpectedEof)
    | x :: _ => (exists tail, entry_here cd l' (fst x) (snd x) tail /\ j + len tail < len l) /\ gave_up cfg r /\
        (zs = [] \/ exists y, zs = [y] /\ remnant l' (j + len l' - len l) x y)
    end.
Proof.
  intros LC l xs G. induction G as [l|l t m z out k tail xs R T Rd D E B G IH]; intros d s p j i fuel LD S P F; (destruct fuel as [|fuel]; [cbn in F; lia|]).
  - exists [], [], (le 4 0x02014b50 ++ l), [], []. pose proof S as (SD & SP & SN). destruct (N.leb_spec (len (le 4 0x02014b50 ++ l) + 4) (j + len (le 4 0x02014b50 ++ l))) as [J|J].
    + exists (Ok tt). repeat split; try constructor; [lia|]. cbn [gather]. destruct (next_ends cfg s SN) as (s' & ->); [|reflexivity].
      apply signature_at; [reflexivity|]. rewrite SD, SP, <- past_drop, P, upto_take. split.
      * rewrite len_take, len_app. change (len (le 4 0x02014b50)) with 4. lia.
      * rewrite take_take, N.min_l by lia. rewrite take_app_exact by reflexivity. vm_compute. reflexivity.
    + eexists. repeat split; try constructor; [lia|]. cbn [gather]. rewrite next_short; [reflexivity|exact SN|].
      rewrite SD, SP, P, upto_take, len_take. lia.
  - assert (H : entry_here cd l z out tail) by (apply (entry_stands cd l z out tail t m k); assumption).
    assert (NT : tail <> []) by (destruct G; [discriminate|]; match goal with R : read_top _ _ _ |- _ => apply top_long in R; apply left_some; lia end).
    destruct (entry_split cd l z out tail LC H NT) as (c & -> & C30 & HC). rewrite upto_take in P, F. destruct (N.le_gt_cases (len c) j) as [J|J].
    + assert (TE : take j (c ++ tail) = c ++ take (j - len c) tail).
      { rewrite <- (take_drop (len c) (take j _)), take_take, drop_take, N.min_l by lia. now rewrite (take_app_exact (len c) c tail eq_refl), (drop_app_exact (len c) c tail eq_refl). }
      rewrite TE in P, F. rewrite len_app in F.
      destruct (step_takes cd cfg (pl i) s d p z out (take (j - len c) tail) LD S ltac:(rewrite P; apply HC)) as (rd & s1 & b & s2 & NX & RE & LV & S2 & P2 & PK).
      destruct (IH d s2 _ (j - len c) (Datatypes.S i) fuel LD S2 ltac:(rewrite P2, upto_take; reflexivity) ltac:(rewrite upto_take; lia))
        as (before & after & l' & ys & zs & r & -> & EH & LL & GA & PI & M).
      exists ((z, out) :: before), after, l', ((z, b) :: ys), zs, r. split; [reflexivity|]. split; [exact (entries_snoc _ _ _ _ _ _ _ H EH)|].
      rewrite len_app. split; [lia|]. split; [cbn [gather]; rewrite NX; cbn [fst]; rewrite RE, LV, GA; reflexivity|].
      split; [cbn [picked]; now split|]. destruct after as [|x after].
      * destruct M as [-> ->]. split; [reflexivity|]. replace (len c + len tail + 4 <=? j + len l') with (len tail + 4 <=? j - len c + len l') by lia. reflexivity.
      * destruct M as ((tl & M1 & M2) & M3 & M4). split; [exists tl; split; [exact M1|lia]|]. split; [exact M3|].
        replace (j + len l' - (len c + len tail)) with (j - len c + len l' - len tail) by lia. exact M4.
    + rewrite take_app_le in P, F by lia. rewrite len_take in F. exists [], ((z, out) :: xs), (c ++ tail), []. 
      assert (X : exists zs r, gather cd cfg pl (Datatypes.S fuel) i s = (zs, r) /\ gave_up cfg r /\ (zs = [] \/ exists y, zs = [y] /\ remnant (c ++ tail) j (z, out) y)).
      { cbn [gather]. destruct (stream_next cfg s) as [[[rd|]|e|e] s1] eqn:NX; cbn [fst].
        - destruct (leave cd (pl i (rd_entry rd)) rd) as [[b s2]|e|e] eqn:LV.
          + destruct (entry_cut cd cfg (pl i) s d p z out tail c j rd s1 b s2 LC LD S H NT J P NX LV) as (S2 & P2 & RM).
            destruct fuel as [|fuel].
            { exfalso. pose proof (next_reads _ _ _ _ NX) as (_ & t2 & R2 & _). apply top_long in R2. destruct S as (SD & SP & _). rewrite SD, SP, P, len_take in R2. cbn in F. lia. }
            cbn [gather]. rewrite next_short; [|exact (proj2 (proj2 S2))|destruct S2 as (SD2 & _ & _); rewrite SD2, P2; cbn; lia].
            eexists _, _. split; [reflexivity|]. split; [exact I|]. right. eexists. split; [reflexivity|exact RM].
          + eexists _, _. split; [reflexivity|]. split; [exact I|now left].
          + now elim (leave_panics cd cfg (pl i) s d p rd s1 e LD S NX).
        - exfalso. pose proof (next_reads _ _ _ _ NX) as (_ & FO & _). destruct S as (SD & SP & _). rewrite SD, SP in FO.
          apply signature_at in FO as [FL FO]; [|reflexivity]. rewrite <- past_drop, P in FL, FO. rewrite len_take in FL. rewrite take_take, N.min_l in FO by lia.
          destruct R as [? ? ? ? ? ? ? ? ? ? m0 ? NU _]. apply nums_head in NU. change (N.of_nat 4) with 4 in NU. rewrite take_app_le, FO in NU by lia. discriminate NU.
        - eexists _, _. split; [reflexivity|]. split; [exact I|now left].
        - eexists _, _. split; [reflexivity|]. split; [|now left]. cbn [gave_up]. apply (stream_next_panics cfg s). now rewrite NX. }
      destruct X as (zs & r & X1 & X2 & X3). exists zs, r. split; [reflexivity|]. split; [constructor|]. split; [lia|]. split; [exact X1|]. split; [exact I|].
      split; [exists tail; split; [exact H|rewrite len_app; lia]|]. split; [exact X2|].
      replace (j + len (c ++ tail) - len (c ++ tail)) with j by lia. exact X3.
Qed.
(** the caller that keeps what it has, and the one that does not *)
Lemma gather_pick cd cfg pl : forall n i s ys, pick cd cfg pl n i s = Ok ys <-> gather cd cfg pl n i s = (ys, Ok tt).
Proof.
  induction n as [|n IH]; intros i s ys; cbn [pick gather]; [split; discriminate|].
  destruct (fst (stream_next cfg s)) as [[rd|]|e|e]; cbn [rbind]; try (split; discriminate).
  - destruct (leave cd (pl i (rd_entry rd)) rd) as [[b s2]|e|e]; cbn [rbind fst snd]; try (split; discriminate).
    destruct (gather cd cfg pl n (S i) s2) as [l r] eqn:GA. destruct (pick cd cfg pl n (S i) s2) as [l'|e|e] eqn:PI; cbn [rbind].
    + apply IH in PI. rewrite PI in GA. injection GA as <- <-. split; intro H; injection H as <-; reflexivity.
    + split; [discriminate|]. intro H. injection H as <- ->. apply IH in GA. congruence.
    + split; [discriminate|]. intro H. injection H as <- ->. apply IH in GA. congruence.
  - split; intro H; injection H as <-; reflexivity.
Qed.
Lemma cut_walk cd cfg pl a xs n s fuel : dec_local cd -> len a < 0x10000000000000000 -> goes cd a xs ->
  nofail (s_sched s) -> s_data s = upto n a -> s_pos s = 0 -> len a < 30 * N.of_nat fuel ->
  exists before after l ys zs r, xs = before ++ after /\ entries_here cd a before l /\ len a <= len l + n /\
    gather cd cfg pl fuel 0 s = (ys ++ zs, r) /\ picked pl 0 before ys /\
    match after with
    | [] => zs = [] /\ r = if len a + 4 <=? n + len l then Ok tt else Err (UpstreamReadError UnexpectedEof)
    | x :: _ => (exists tail, entry_here cd l (fst x) (snd x) tail /\ n + len tail < len a) /\ gave_up cfg r /\
        (zs = [] \/ exists y, zs = [y] /\ remnant l (n + len l - len a) x y)
    end.
Proof.
  intros LC LA G N SD SP F. assert (LU : len (upto n a) <= len a) by (rewrite upto_take, len_take; lia).
  apply (gather_cut cd cfg pl LC a xs G (upto n a) s 0 n 0 fuel); [lia|now repeat split|reflexivity|lia].
Qed.
Lemma complete_walk cd cfg pl a xs n s fuel ys : dec_local cd -> len a < 0x10000000000000000 -> goes cd a xs ->
  nofail (s_sched s) -> s_data s = upto n a -> s_pos s = 0 -> len a < 30 * N.of_nat fuel ->
  pick cd cfg pl fuel 0 s = Ok ys -> picked pl 0 xs ys.
Proof.
  intros LC LA G N SD SP F H. apply gather_pick in H.
  destruct (cut_walk cd cfg pl a xs n s fuel LC LA G N SD SP F) as (before & after & l & ys' & zs & r & -> & _ & _ & GA & PI & M). rewrite H in GA.
  injection GA as -> <-. destruct after as [|x after]; [|destruct M as (_ & [] & _)]. destruct M as [-> _]. now rewrite !app_nil_r.
Qed.

(** ** What the writer made *)
Definition everything : plan := fun _ _ => None.
Lemma picked_everything : forall a i b, picked everything i a b -> b = a.
Proof. induction a as [|[z o] a IH]; intros i [|[z' o'] b] H; try contradiction; [reflexivity|]. destruct H as (-> & -> & H). now rewrite (IH _ _ H). Qed.
Lemma walks_pick cd cfg : forall l s i n, walks cd cfg l s -> (length l < n)%nat ->
  exists ys, pick cd cfg everything n i s = Ok ys /\ Forall2 (told_of cd) l ys.
Proof.
  induction l as [|x l IH]; intros s i n W L; (destruct n as [|n]; [cbn in L; lia|]); cbn [pick].
  - cbn [walks] in W. rewrite W. exists []. now split.
  - destruct W as (rd & s1 & NX & SH & out & HO & W). rewrite NX. cbn [fst rbind]. unfold everything at 1, leave.
    pose proof (W []) as W0. cbn [er_reads] in W0. destruct W0 as ((rest & E0 & R0 & _) & _ & _). cbn [delivered map concat app] in E0.
    assert (E1 : out = rest) by exact E0. clear E0. subst rest.
    destruct (er_read_to_end cd (rd_reader rd)) as [b r] eqn:E. cbn [fst] in R0. subst b. cbn [rbind].
    destruct (to_end_as_reads _ _ _ _ _ E) as (reads & R). specialize (W reads). destruct (er_reads cd reads (rd_reader rd)) as [xs r2]. destruct R as [-> R].
    cbv zeta in W. destruct W as (_ & _ & W & _). destruct (W R) as (s2 & -> & W2). cbn [rbind fst snd]. cbn [length] in L.
    destruct (IH s2 (S i) n W2 ltac:(lia)) as (ys & -> & F). cbn [rbind]. eexists. split; [reflexivity|]. constructor; [|exact F]. split; [exact SH|exact HO].
Qed.
Lemma written_goes cd sched l : codec_ok cd -> Forall op_good l -> Forall (fun o => dropped o = false) l ->
  let '(xs, r, w) := run_archive cd sched l in
  r = Ok tt -> Forall (fun x => worked (snd x) = true) xs -> len (w_bytes w) < 0x10000000000000000 ->
  Forall (fun x => streamable cd (snd x)) (succeeded false xs) -> succeeded false xs <> [] ->
  exists ts, goes cd (w_bytes w) ts /\ Forall2 (told_of cd) (succeeded false xs) ts.
Proof.
  intros CO G DR. set (cfg := {| overflow_checks := true; entry_mem_size := 1 |}). pose proof (archive_walk cd cfg sched) as A.
  destruct (run_archive cd sched l) as [[xs r] w] eqn:E. intros R W L ST NE.
  pose proof (A (src (w_bytes w) 0) l CO G DR) as A0. rewrite E in A0. assert (SS : stands (src (w_bytes w) 0) (w_bytes w) 0) by (repeat split; constructor). specialize (A0 R W L ST NE SS).
  destruct (walks_pick cd cfg _ _ 0%nat (S (length (succeeded false xs))) A0 ltac:(lia)) as (ys & PI & F).
  destruct (pick_reads cd cfg everything (w_bytes w) L _ _ _ 0 ys SS PI) as (ts & GO & PK).
  apply picked_everything in PK. subst ys. exists ts. split; [exact GO|exact F].
Qed.
