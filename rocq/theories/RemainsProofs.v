(** Proofs: what a walk that does not come to the end has passed. *)
From Verif Require Import Base BaseFacts SpecFormat SpecCrc SpecArchive SpecRead SpecStream SpecStrict SpecExact SpecThrough ZString Headers HeadersFacts ExtraField
  Entry IO IOFacts Reader ReaderFacts LfhFacts EntryReader EntryReaderFacts EntryProofs ReadProofs StreamReader StreamProofs RoundTrip StreamWalk FrontProofs
  StrictProofs ExactProofs ExactTop ThroughProofs FaultWalkProofs ReaderPolls SpecReadPolls ReadPollProofs DecoderPolls SpecDecoder DecoderProofs DecoderWalk SpecWalk DecoderWalkProofs
  SpecSalvage SalvageProofs SpecRemains SpecAwake AwakeProofs SpecEndure EndureProofs.
Arguments N.mul : simpl never.
Arguments N.add : simpl never.
Arguments N.sub : simpl never.
Arguments N.min : simpl never.

Lemma dr_polls_app D : forall l1 l2 (r : dreader D), dr_polls (l1 ++ l2) r = let '(p1, r1) := dr_polls l1 r in let '(p2, r2) := dr_polls l2 r1 in (p1 ++ p2, r2).
Proof.
  induction l1 as [|c l1 IH]; intros l2 r; cbn [dr_polls app].
  - now destruct (dr_polls l2 r).
  - destruct (dr_poll c r) as [p r1]. rewrite IH. destruct (dr_polls l1 r1) as [p1 r2]. now destruct (dr_polls l2 r2).
Qed.
Lemma dr_polls_length D : forall l (r : dreader D), length (fst (dr_polls l r)) = length l.
Proof. induction l as [|c l IH]; intro r; cbn [dr_polls]; [reflexivity|]. destruct (dr_poll c r) as [p r1]. specialize (IH r1). destruct (dr_polls l r1). cbn [fst length] in *. now f_equal. Qed.
(** polls up to some point are the polls of a caller that stops there *)
Lemma dr_polls_part D l (r r' : dreader D) ps qs : dr_polls l r = (ps ++ qs, r') -> exists r1, dr_polls (firstn (length ps) l) r = (ps, r1).
Proof.
  intro E. rewrite <- (firstn_skipn (length ps) l), dr_polls_app in E. pose proof (dr_polls_length D (firstn (length ps) l) r) as L. destruct (dr_polls (firstn (length ps) l) r) as [p1 r1].
  destruct (dr_polls (skipn (length ps) l) r1) as [p2 r2] eqn:E2. injection E as E _. cbn [fst] in L. exists r1. f_equal.
  pose proof (dr_polls_length D (skipn (length ps) l) r1) as L2. rewrite E2 in L2. cbn [fst] in L2. rewrite firstn_length in L. rewrite skipn_length in L2.
  apply (f_equal (firstn (length ps))) in E as E3. rewrite (firstn_app (length ps) ps), firstn_all, Nat.sub_diag in E3. cbn [firstn] in E3. rewrite app_nil_r in E3.
  apply (f_equal (@length _)) in E as E4. rewrite !app_length in E4. rewrite firstn_app, firstn_all2 in E3 by lia. replace (length ps - length p1)%nat with 0%nat in E3 by lia.
  cbn [firstn] in E3. now rewrite app_nil_r in E3.
Qed.

Section Walk.
Context (cd : codec) (D : decoder) (view : dg_state D -> compression * bytes * bytes) (inv : dg_state D -> bytes -> Prop) (OK : decoder_ok cd D view inv).

Lemma walk_passed cfg d : len d < 0x10000000000000000 -> forall l s ys o, s_data s = d -> d_walk D cfg l s = (ys, o) -> Forall heeds ys ->
  exists xs rest ys1 zs, ys = ys1 ++ zs /\ entries_here cd (past (s_pos s) d) xs rest /\ Forall2 visited_as xs ys1 /\ Forall (fun y => sd_left y <> None) ys1 /\
    (zs = [] \/ exists y, zs = [y] /\ sd_left y = None /\ halfway cd rest y) /\
    (forall u, o = Some (Ok u) -> zs = [] /\ exists b, rest = le 4 0x02014b50 ++ b).
Proof.
  intro LD. induction l as [|y l IH]; intros s ys o DS H NF; cbn [d_walk] in H.
  { injection H as <- <-. exists [], (past (s_pos s) d), [], []. split; [reflexivity|]. split; [apply eh_none|]. split; [constructor|]. split; [constructor|]. split; [now left|discriminate]. }
  subst d.
  assert (NONE : forall (x : list stayed * option (res unit)) e, x = ([], Some e) -> (forall u, e <> Ok u) -> x = (ys, o) -> 
    exists xs rest ys1 zs, ys = ys1 ++ zs /\ entries_here cd (past (s_pos s) (s_data s)) xs rest /\ Forall2 visited_as xs ys1 /\ Forall (fun y => sd_left y <> None) ys1 /\
    (zs = [] \/ exists y, zs = [y] /\ sd_left y = None /\ halfway cd rest y) /\ (forall u, o = Some (Ok u) -> zs = [] /\ exists b, rest = le 4 0x02014b50 ++ b)).
  { intros x e -> NE Q. injection Q as <- <-. exists [], (past (s_pos s) (s_data s)), [], []. split; [reflexivity|]. split; [apply eh_none|]. split; [constructor|]. split; [constructor|]. split; [now left|]. intros u Q. injection Q as Q. now elim (NE u). }
  destruct (stream_next cfg s) as [[[rd|]|e|e] s1] eqn:NX; [| |refine (NONE _ (Err e) eq_refl _ H); discriminate|refine (NONE _ (Panic e) eq_refl _ H); discriminate].
  - pose proof (next_reads _ _ _ _ NX) as (D1 & t & R & T & Rd & RD & RR). rewrite RR in H. cbn [er_new er_src er_comp er_limit] in H.
    pose proof (fun q => stay_midway cd D view inv OK s1 (rd_entry rd) q ltac:(now rewrite D1)) as SA. cbv zeta in SA. rewrite D1 in SA.
    pose proof (SA (sy_polls y)) as SM.
    destruct (dr_polls (sy_polls y) _) as [ps r'] eqn:DP in *. destruct SM as (LB & NB & SM).
    set (z := rd_entry rd) in *. set (W := data_of z (past (s_pos s1) (s_data s))) in *.
    assert (HW : halfway cd (past (s_pos s) (s_data s)) {| sd_entry := z; sd_polls := ps; sd_left := None |}).
    { exists t, (past (s_pos s1) (s_data s)). split; [exact R|]. split; [exact T|]. split; [exact Rd|]. cbn [sd_polls sd_entry]. intros pq qs E NB'. subst ps.
      destruct (dr_polls_part _ _ _ _ _ _ DP) as (r1 & E1). specialize (SA (firstn (length pq) (sy_polls y))). rewrite E1 in SA. destruct SA as (_ & _ & SA). now destruct (SA NB') as (_ & PR & _). }
    assert (LAST : forall o', (forall u, o' <> Some (Ok u)) -> ([{| sd_entry := z; sd_polls := ps; sd_left := None |}], o') = (ys, o) ->
      exists xs rest ys1 zs, ys = ys1 ++ zs /\ entries_here cd (past (s_pos s) (s_data s)) xs rest /\ Forall2 visited_as xs ys1 /\ Forall (fun y => sd_left y <> None) ys1 /\
      (zs = [] \/ exists y, zs = [y] /\ sd_left y = None /\ halfway cd rest y) /\ (forall u, o = Some (Ok u) -> zs = [] /\ exists b, rest = le 4 0x02014b50 ++ b)).
    { intros o' NE Q. injection Q as <- <-. exists [], (past (s_pos s) (s_data s)), [], [{| sd_entry := z; sd_polls := ps; sd_left := None |}].
      split; [reflexivity|]. split; [apply eh_none|]. split; [constructor|]. split; [constructor|]. split; [right; eexists; split; [reflexivity|]; split; [reflexivity|exact HW]|]. intros u Q. now elim (NE u). }
    destruct ((if sy_done y then dr_done else dr_skip) (sy_patience y) (rd_descriptor rd) r') as [[s'|e|e]|] eqn:LV; [|refine (LAST _ _ H); discriminate..].
    destruct (d_walk D cfg l s') as [ys' o'] eqn:WK. injection H as <- ->. inversion NF as [|? ? HF NF2]; subst. specialize (HF ltac:(discriminate)).
    destruct (SM HF) as (MW & PR & AE).
    assert (LO : left_ok cd D (s_pos s1) (en_compression z) W (rd_descriptor rd) (sy_done y) r' (told ps) ((if sy_done y then dr_done else dr_skip) (sy_patience y) (rd_descriptor rd) r'))
      by (destruct (sy_done y); [now apply (done_left cd D view inv OK)|now apply (skip_left cd D view inv OK)]).
    rewrite LV in LO. cbn [left_ok] in LO. destruct LO as [(? & _ & X)|[(_ & ? & _ & X)|[(_ & _ & X)|(k & s2 & K & LE & PS & DT & DN & AE2)]]]; [discriminate X..|].
    destruct (decoded cd (en_compression z) W) as [out ok] eqn:DE. cbn [fst snd] in *. subst ok.
    destruct (after_any (rd_descriptor rd) s2) as [(? & _ & F)|(_ & _ & A3)]; [rewrite <- AE2 in F; discriminate F|]. destruct (A3 _ (eq_sym AE2)) as [LG AC].
    pose proof (later_trans _ _ _ LB LE) as (D5 & _). rewrite D1 in D5.
    assert (ST : stands (calm s2) (s_data s) (s_pos s1 + k)) by (repeat split; [exact D5|exact PS|constructor]).
    destruct (behind_after _ _ _ _ _ ST AC) as [B S2]. cbn [calm s_pos] in B. destruct LG as (D6 & _). rewrite D5 in D6.
    destruct (IH _ _ _ D6 WK NF2) as (xs2 & rest & ys1 & zs & -> & EH & Q & QL & L & O). exists ((z, out) :: xs2), rest, ({| sd_entry := z; sd_polls := ps; sd_left := Some (sy_done y) |} :: ys1), zs.
    split; [reflexivity|]. split; [|split; [|split; [constructor; [discriminate|exact QL]|split; [exact L|exact O]]]].
    + rewrite RD in B. eapply eh_entry; [|exact EH]. eapply entry_stands; try eassumption. rewrite !past_drop in *. now rewrite drop_drop.
    + constructor; [|exact Q]. split; [reflexivity|]. split; [exact PR|]. cbn [sd_polls sd_left snd]. intros [A|A]; [specialize (AE A); congruence|]. injection A as A. now apply DN.
  - injection H as <- <-. apply next_reads in NX as (_ & (a & b & E & L) & _). exists [], (past (s_pos s) (s_data s)), [], [].
    split; [reflexivity|]. split; [apply eh_none|]. split; [constructor|]. split; [constructor|]. split; [now left|]. intros _ _. split; [reflexivity|]. exists b. rewrite past_drop, E. now apply drop_app_exact.
Qed.
End Walk.

(** ** There is one way only to read the bytes *)
Lemma behind_once desc l t t' : behind desc l t -> behind desc l t' -> t = t'.
Proof.
  intros B B'. assert (S : stands (src l 0) l 0) by (repeat split; constructor). assert (P : past 0 l = l) by reflexivity.
  destruct (after_behind desc (src l 0) l 0 t S ltac:(now rewrite P)) as (s1 & A1 & _ & P1). destruct (after_behind desc (src l 0) l 0 t' S ltac:(now rewrite P)) as (s2 & A2 & _ & P2). congruence.
Qed.
Lemma told_once l t m z z' : read_top l t m -> top_tells t z -> top_readable t z -> top_tells t z' -> top_readable t z' -> z = z'.
Proof.
  intros R T Rd T' Rd'. set (cfg := {| overflow_checks := true; entry_mem_size := 1 |}). assert (N : nofail (s_sched (src l 0))) by constructor.
  destruct (next_takes cfg (src l 0) t m z N R T Rd) as (r1 & s1 & E1 & X1 & _). destruct (next_takes cfg (src l 0) t m z' N R T' Rd') as (r2 & s2 & E2 & X2 & _). congruence.
Qed.
Lemma entry_once cd l z out t z' out' t' : entry_here cd l z out t -> entry_here cd l z' out' t' -> z = z' /\ out = out' /\ t = t'.
Proof.
  intros [t1 m k R T Rd D E B] [t2 m' k' R' T' Rd' D' E' B']. destruct (top_unique _ _ _ R _ _ R') as [<- <-]. pose proof (told_once _ _ _ _ _ R T Rd T' Rd') as <-.
  split; [reflexivity|]. rewrite D in D'. injection D' as <-. split; [reflexivity|]. rewrite E in E'. injection E' as <-. exact (behind_once _ _ _ _ B B').
Qed.

(** ** What the cut leaves *)
Lemma here_cut cd z out tail c j z' out' tail' : dec_local cd -> entry_here cd (c ++ tail) z out tail -> tail <> [] -> j < len c -> entry_here cd (take j c) z' out' tail' ->
  tail' = [] /\ remnant (c ++ tail) j (z, out) (z', out').
Proof.
  intros LC [t m k R T Rd D E B] NE J [t' m' k' R' T' Rd' D' E' B'].
  apply some_left in NE. pose proof (behind_size _ _ _ B) as BS. rewrite len_past in BS.
  destruct (top_split _ _ _ R) as (h & EH & H30 & H & HC); [apply left_some; lia|].
  destruct (behind_split _ _ _ B) as (dd & ED & HB & HBC & HBN). rewrite past_drop in ED.
  assert (LM : len m = k + len dd + len tail).
  { apply (f_equal len) in ED. rewrite len_drop, len_app in ED. lia. }
  assert (LC' : len c = len h + k + len dd) by (apply (f_equal len) in EH; rewrite !len_app in EH; lia).
  assert (CE : take j c = take j (h ++ m)) by (rewrite <- EH; symmetry; apply take_app_le; lia). rewrite CE in R'.
  assert (RM : forall t2 m2, read_top (c ++ tail) t2 m2 -> m2 = m) by (intros t2 m2 R2; symmetry; exact (proj2 (top_unique _ _ _ R _ _ R2))).
  destruct (N.lt_ge_cases j (len h)) as [JH|JH].
  - rewrite take_app_le in R' by lia. destruct (HC _ _ _ JH R') as (-> & EM & EF). destruct (tells_method _ _ _ _ T T' EM EF) as [ZC ZD].
    rewrite past_drop, drop_nil in B'. split; [|split; cbn [fst snd]].
    + apply len_nil0. apply behind_size in B'. rewrite len_nil in B'. lia.
    + rewrite ZC in D', E'. assert (DN : data_of z' [] = []) by (unfold data_of, upto; destruct (en_data_descriptor z'); [reflexivity|apply firstn_nil]).
      rewrite DN in D', E'. destruct (en_compression z) eqn:C.
      { cbn [decoded] in D'. injection D' as <-. now exists out. }
      all: refine ((fun X => _) (decoded_more cd _ [] (data_of z m) out' k' out k LC _ D' E' D E)); [|discriminate]; destruct X as (<- & _); exists []; symmetry; apply app_nil_r.
    + intros t2 m2 R2 L2. rewrite (RM _ _ R2) in L2. rewrite EH, len_app in L2. lia.
  - assert (TE : take j (h ++ m) = h ++ take (j - len h) m).
    { rewrite <- (take_drop (len h) (take j _)), take_take, drop_take, N.min_l by lia. now rewrite (take_app_exact (len h) h m eq_refl), (drop_app_exact (len h) h m eq_refl). }
    rewrite TE in R'. destruct (top_unique _ _ _ R' _ _ (H (take (j - len h) m))) as [-> ->]. pose proof (told_once _ _ _ _ _ R' T Rd T' Rd') as <-.
    set (i := j - len h) in *. destruct (data_prefix z m i) as (more & DP).
    assert (FALSE : en_compression z <> Stored -> False).
    { intro NS. rewrite DP in D, E. destruct (decoded_more cd _ _ _ _ _ _ _ LC NS D' E' D E) as (_ & -> & KL).
      assert (LI : len (data_of z (take i m)) <= i) by (unfold data_of; destruct (en_data_descriptor z); rewrite ?upto_take, !len_take; lia).
      apply (HBC (i - k) tail'); [lia|]. rewrite past_drop, drop_take, ED, take_app_le in B' by lia. exact B'. }
    destruct (en_compression z) eqn:C.
    + assert (DS : en_data_descriptor z = false) by (apply (readable_stored t); assumption). rewrite DS in B'.
      unfold data_of in D, E, D', E', DP. rewrite DS in D, E, D', E', DP. cbn [decoded entry_span] in *. rewrite (HBN DS) in *. rewrite len_nil in *.
      injection D as <-. injection E as <-. injection D' as <-. injection E' as <-. rewrite !upto_take in *. rewrite !len_take in *.
      assert (PE : tail' = past (N.min (en_compressed_size z) (N.min i (len m))) (take i m)) by (inversion B'; reflexivity). split; [|split; cbn [fst snd]].
      * rewrite PE. apply len_nil0. rewrite len_past, len_take. lia.
      * exists more. exact DP.
      * intros _ _ _ _. now split.
    + exfalso; apply FALSE; discriminate.
    + exfalso; apply FALSE; discriminate.
    + exfalso; apply FALSE; discriminate.
    + exfalso; apply FALSE; discriminate.
    + exfalso; apply FALSE; discriminate.
    + exfalso; apply FALSE; discriminate.
Qed.
Lemma decoded_grows cd c w rest : dec_grows cd -> prefix (fst (decoded cd c w)) (fst (decoded cd c (w ++ rest))).
Proof.
  intro DG. assert (X : forall c, c <> Stored -> prefix (fst (dec cd c w)) (fst (dec cd c (w ++ rest)))) by (intros; now apply DG).
  destruct c; cbn [decoded]; [apply prefix_app|..]; (match goal with |- context [dec cd ?c w] => specialize (X c ltac:(discriminate)) end; destruct (dec cd _ w), (dec cd _ (w ++ rest)); exact X).
Qed.
(** an entry that is begun, and not left, before or at the cut *)
Lemma half_cut cd l z out tail j y : dec_grows cd -> entry_here cd l z out tail -> tail <> [] -> halfway cd (upto j l) y ->
  begins out y /\ forall t m, read_top l t m -> len l <= len m + j -> sd_entry y = z.
Proof.
  intros DG [t m k R T Rd D E B] NE (t' & m' & R' & T' & Rd' & HW). apply some_left in NE. pose proof (behind_size _ _ _ B) as BS. rewrite len_past in BS.
  destruct (top_split _ _ _ R) as (h & EH & H30 & H & HC); [apply left_some; lia|]. rewrite upto_take in R'. rewrite EH in R'.
  assert (OUT : out = fst (decoded cd (en_compression z) (data_of z m))) by now rewrite D.
  destruct (N.lt_ge_cases j (len h)) as [JH|JH].
  - rewrite take_app_le in R' by lia. destruct (HC _ _ _ JH R') as (-> & EM & EF). destruct (tells_method _ _ _ _ T T' EM EF) as [ZC ZD]. split.
    + intros ps qs P NB. eapply prefix_trans; [exact (HW ps qs P NB)|]. rewrite ZC, OUT.
      assert (DN : data_of (sd_entry y) [] = []) by (unfold data_of, upto; destruct (en_data_descriptor (sd_entry y)); [reflexivity|apply firstn_nil]). rewrite DN.
      exact (decoded_grows cd _ [] (data_of z m) DG).
    + intros t2 m2 R2 L2. destruct (top_unique _ _ _ R _ _ R2) as [<- <-]. rewrite EH, len_app in L2. lia.
  - assert (TE : take j (h ++ m) = h ++ take (j - len h) m).
    { rewrite <- (take_drop (len h) (take j _)), take_take, drop_take, N.min_l by lia. now rewrite (take_app_exact (len h) h m eq_refl), (drop_app_exact (len h) h m eq_refl). }
    rewrite TE in R'. destruct (top_unique _ _ _ R' _ _ (H (take (j - len h) m))) as [-> ->]. pose proof (told_once _ _ _ _ _ R' T Rd T' Rd') as ZE. rewrite <- ZE in HW.
    split; [|now rewrite ZE]. intros ps qs P NB. eapply prefix_trans; [exact (HW ps qs P NB)|]. rewrite OUT. destruct (data_prefix z m (j - len h)) as (more & ->). now apply decoded_grows.
Qed.
Lemma nothing_here cd xs rest : entries_here cd [] xs rest -> xs = [] /\ rest = [].
Proof. intro H. inversion H as [|? z out tail xs' rest' [t m k R _ _ _ _ _]]; subst; [now split|]. apply top_long in R. rewrite len_nil in R. lia. Qed.
Lemma cut_passed cd : dec_local cd -> forall l xs, goes cd l xs -> forall j xs' rest, entries_here cd (upto j l) xs' rest ->
  exists before after l', xs = before ++ after /\ entries_here cd l before l' /\ goes cd l' after /\ len l <= len l' + j /\
    (xs' = before /\ rest = upto (j + len l' - len l) l' \/
     exists x more y tail, after = x :: more /\ xs' = before ++ [y] /\ rest = [] /\ remnant l' (j + len l' - len l) x y /\ entry_here cd l' (fst x) (snd x) tail /\ j + len tail < len l).
Proof.
  intros LC l xs G. induction G as [l|l t m z out k tail xs R T Rd D E B G IH]; intros j xs' rest H'.
  - exists [], [], (le 4 0x02014b50 ++ l). split; [reflexivity|]. split; [apply eh_none|]. split; [constructor|]. split; [lia|]. left.
    inversion H' as [|? z out tail xs1 rest1 [t m k R _ _ _ _ _]]; subst; [split; [reflexivity|f_equal; lia]|]. exfalso. pose proof (top_long _ _ _ R) as TL. rewrite upto_take, len_take in TL.
    destruct R as [? ? ? ? ? ? ? ? ? ? m0 ? NU _]. apply nums_head in NU. change (N.of_nat 4) with 4 in NU. rewrite upto_take, take_take, N.min_l in NU by lia.
    rewrite take_app_exact in NU by reflexivity. vm_compute in NU. discriminate NU.
  - assert (H : entry_here cd l z out tail) by (apply (entry_stands cd l z out tail t m k); assumption).
    assert (GG : goes cd l ((z, out) :: xs)) by (eapply goes_entry; eassumption).
    assert (NT : tail <> []) by (destruct G; [discriminate|]; match goal with R : read_top _ _ _ |- _ => apply top_long in R; apply left_some; lia end).
    inversion H' as [|l0 z' out' tail' xs1 rest1 H1 H2]; subst.
    { exists [], ((z, out) :: xs), l. split; [reflexivity|]. split; [apply eh_none|]. split; [exact GG|]. split; [lia|]. left. split; [reflexivity|f_equal; lia]. }
    clear R T Rd D E B. destruct (entry_split cd l z out tail LC H NT) as (c & -> & C30 & HC). rewrite upto_take in H1. destruct (N.le_gt_cases (len c) j) as [J|J].
    + assert (TE : take j (c ++ tail) = c ++ take (j - len c) tail).
      { rewrite <- (take_drop (len c) (take j _)), take_take, drop_take, N.min_l by lia. now rewrite (take_app_exact (len c) c tail eq_refl), (drop_app_exact (len c) c tail eq_refl). }
      rewrite TE in H1. destruct (entry_once _ _ _ _ _ _ _ _ H1 (HC (take (j - len c) tail))) as (-> & -> & ->). rewrite <- upto_take in H2.
      destruct (IH _ _ _ H2) as (before & after & l' & -> & EH & GO & LL & M). exists ((z, out) :: before), after, l'. split; [reflexivity|].
      split; [exact (entries_snoc _ _ _ _ _ _ _ H EH)|]. split; [exact GO|]. rewrite len_app. split; [lia|].
      replace (j + len l' - (len c + len tail)) with (j - len c + len l' - len tail) by lia. destruct M as [[-> ->]|(x & more & y & tl & -> & -> & -> & RM & TL & JL)]; [left; now split|].
      right. exists x, more, y, tl. split; [reflexivity|]. split; [reflexivity|]. split; [reflexivity|]. split; [exact RM|]. split; [exact TL|lia].
    + rewrite take_app_le in H1 by lia. destruct (here_cut cd z out tail c j z' out' tail' LC H NT J H1) as [-> RM]. apply nothing_here in H2 as [-> ->].
      exists [], ((z, out) :: xs), (c ++ tail). split; [reflexivity|]. split; [apply eh_none|]. split; [exact GG|]. split; [lia|]. right. exists (z, out), xs, (z', out'), tail.
      split; [reflexivity|]. split; [reflexivity|]. split; [reflexivity|]. split; [replace (j + len (c ++ tail) - len (c ++ tail)) with j by lia; exact RM|]. split; [exact H|rewrite len_app; lia].
Qed.

(** ** Both together *)
Lemma told_part : forall ps qs, prefix (told ps) (told (ps ++ qs)).
Proof. intros ps qs. unfold told. rewrite map_app, concat_app. apply prefix_app. Qed.
Lemma walk_cut cd D view inv cfg a xs n l s ys o : decoder_ok cd D view inv -> dec_local cd -> dec_grows cd -> len a < 0x10000000000000000 -> goes cd a xs ->
  s_data s = upto n a -> s_pos s = 0 -> d_walk D cfg l s = (ys, o) -> Forall heeds ys ->
  exists before after l' ys1 zs, xs = before ++ after /\ entries_here cd a before l' /\ len a <= len l' + n /\ ys = ys1 ++ zs /\ Forall2 visited_as before ys1 /\
    (zs = [] \/ exists x more y tail, zs = [y] /\ after = x :: more /\ entry_here cd l' (fst x) (snd x) tail /\ begins (snd x) y /\
      (forall t m, read_top l' t m -> len a <= len m + n -> sd_entry y = fst x) /\ (sd_left y <> None -> n + len tail < len a)) /\
    (forall u, o = Some (Ok u) -> after = [] /\ zs = [] /\ len a + 4 <= n + len l').
Proof.
  intros OK LC DG LA G SD SP W NF. assert (LU : len (upto n a) <= len a) by (rewrite upto_take, len_take; lia).
  destruct (walk_passed cd D view inv OK cfg (upto n a) ltac:(lia) l s ys o SD W NF) as (xs' & rest & ys1 & zs & -> & EH & V & _ & Z & O). rewrite SP in EH. change (past 0 (upto n a)) with (upto n a) in EH.
  destruct (cut_passed cd LC a xs G n xs' rest EH) as (before & after & l' & -> & EB & GO & LL & [[-> ->]|(x & more & y & tail & -> & -> & -> & RM & TL & JL)]).
  - exists before, after, l', ys1, zs. split; [reflexivity|]. split; [exact EB|]. split; [exact LL|]. split; [reflexivity|]. split; [exact V|]. split.
    + destruct Z as [->|(y & -> & LN & HW)]; [now left|]. right. destruct GO as [l'|l' t m z out k tail more R T Rd D0 E B GO].
      { exfalso. destruct HW as (t & m & R & _). pose proof (top_long _ _ _ R) as TL. rewrite upto_take, len_take in TL.
        destruct R as [? ? ? ? ? ? ? ? ? ? m0 ? NU _]. apply nums_head in NU. change (N.of_nat 4) with 4 in NU. rewrite upto_take, take_take, N.min_l in NU by lia.
        rewrite take_app_exact in NU by reflexivity. vm_compute in NU. discriminate NU. }
      assert (H : entry_here cd l' z out tail) by (apply (entry_stands cd l' z out tail t m k); assumption).
      assert (NT : tail <> []) by (destruct GO; [discriminate|]; match goal with R : read_top _ _ _ |- _ => apply top_long in R; apply left_some; lia end).
      destruct (half_cut cd l' z out tail _ y DG H NT HW) as [BG ZE]. exists (z, out), more, y, tail. split; [reflexivity|]. split; [reflexivity|]. split; [exact H|]. split; [exact BG|].
      split; [|congruence]. intros t2 m2 R2 L2. apply (ZE t2 m2 R2). lia.
    + intros u EO. destruct (O u EO) as (-> & b & ER). assert (L4 : 4 <= len (upto (n + len l' - len a) l')) by (rewrite ER, len_app; change (len (le 4 0x02014b50)) with 4; lia).
      rewrite upto_take, len_take in L4. destruct GO as [l'|l' t m z out k tail more R T Rd D0 E B GO]; [split; [reflexivity|]; split; [reflexivity|lia]|]. exfalso.
      destruct R as [? ? ? ? ? ? ? ? ? ? m0 ? NU _]. apply nums_head in NU. change (N.of_nat 4) with 4 in NU. apply (f_equal (take 4)) in ER. rewrite upto_take, take_take, N.min_l in ER by lia.
      rewrite take_app_exact in ER by reflexivity. rewrite ER in NU. vm_compute in NU. discriminate NU.
  - apply Forall2_app_inv_l in V as (ys2 & ys3 & V1 & V2 & ->). inversion V2 as [|? w ? ? VW V3]; subst. inversion V3; subst. clear V2 V3.
    assert (ZN : zs = []).
    { destruct Z as [->|(w' & -> & _ & t & m & R & _)]; [reflexivity|]. apply top_long in R. rewrite len_nil in R. lia. }
    subst zs. exists before, (x :: more), l', ys2, [w]. split; [reflexivity|]. split; [exact EB|]. split; [exact LL|]. split; [now rewrite app_nil_r|]. split; [exact V1|]. split.
    + right. exists x, more, w, tail. split; [reflexivity|]. split; [reflexivity|]. split; [exact TL|]. destruct VW as (VE & VP & _). destruct RM as ((q & RQ) & RM). split.
      * intros ps qs E _. rewrite RQ. eapply prefix_trans; [|apply prefix_app]. eapply prefix_trans; [|exact VP]. rewrite E. apply told_part.
      * split; [|intros _; exact JL]. intros t m R L. rewrite VE. apply (RM t m R). lia.
    + intros u EO. destruct (O u EO) as (_ & b & E). discriminate E.
Qed.
Lemma walk_complete cd D view inv cfg a xs n l s ys u : decoder_ok cd D view inv -> dec_local cd -> dec_grows cd -> len a < 0x10000000000000000 -> goes cd a xs ->
  s_data s = upto n a -> s_pos s = 0 -> d_walk D cfg l s = (ys, Some (Ok u)) -> Forall heeds ys -> Forall2 visited_as xs ys.
Proof.
  intros OK LC DG LA G SD SP W NF. destruct (walk_cut cd D view inv cfg a xs n l s ys _ OK LC DG LA G SD SP W NF) as (before & after & l' & ys1 & zs & -> & _ & _ & -> & V & _ & O).
  destruct (O u eq_refl) as (-> & -> & _). now rewrite !app_nil_r.
Qed.

(** ** A patient caller comes to the cut *)
Section Past.
Context (cd : codec) (D : decoder) (view : dg_state D -> compression * bytes * bytes) (inv : dg_state D -> bytes -> Prop) (OK : decoder_ok cd D view inv) (LV : decoder_lively D).
Lemma walk_past cfg d : len d < 0x10000000000000000 -> forall t xs rest, entries_here cd t xs rest -> forall m l1 l2 s, s_data s = d -> past (s_pos s) d = t ->
  (troubles (s_sched s) <= m)%nat -> Forall2 (fun x y => thorough m (snd x) y) xs l1 ->
  (exists s' ys1, later s s' /\ past (s_pos s') d = rest /\ d_walk D cfg (l1 ++ l2) s = (let '(ys2, o) := d_walk D cfg l2 s' in (ys1 ++ ys2, o)) /\
     Forall2 visited_as xs ys1 /\ Forall2 (fun y z => sd_left z = Some (sy_done y)) l1 ys1) \/
  exists ys r, d_walk D cfg (l1 ++ l2) s = (ys, Some r) /\ faulty s r.
Proof.
  intros LD t xs rest G. induction G as [t|t z out tail xs rest [tp m0 k R T Rd DE E B] G IH]; intros m l1 l2 s DS P LM TH; (destruct l1 as [|y l]; [inversion TH; subst|]); [|inversion TH|].
  - left. exists s, []. split; [apply later_refl|]. split; [reflexivity|]. cbn [app]. split; [now destruct (d_walk D cfg l2 s)|]. split; constructor.
  - subst d. pose proof (next_any cfg s) as NX. rewrite <- P in R. destruct (next_takes cfg (calm s) tp m0 z (Forall_nil _) R T Rd) as (rd0 & s0 & N0 & RE & M). cbn [app d_walk].
    rewrite N0 in NX. destruct (stream_next cfg s) as [r s1] eqn:NE. destruct NX as [(c & I & ->)|(LA & S0 & NX)]; [right; eexists _, _; split; [reflexivity|now exists c]|].
    destruct r as [[rd|]|e|p]; [|discriminate NX..]. destruct NX as (rd1 & X & E1 & E2 & _). injection X as <-.
    pose proof (next_reads _ _ _ _ NE) as (D1 & _ & _ & _ & _ & RD & RR). rewrite RR. cbn [er_new er_src er_comp er_limit].
    assert (Z : rd_entry rd = z) by congruence. subst s0. change (past (s_pos s1) (s_data s1) = m0) in M. rewrite D1 in M. rewrite RD, Z.
    apply both_cons in TH as [TY TH]. cbn [snd] in TY.
    pose proof (stay_midway cd D view inv OK s1 z (sy_polls y) ltac:(now rewrite D1)) as SM. cbv zeta in SM. rewrite D1, M in SM.
    assert (PA : forall m, thorough m out y -> (troubles (s_sched s1) <= m)%nat -> sy_done y = true ->
      Exists at_end (fst (dr_polls (sy_polls y) (dr_new D s1 (en_compression z) (if en_data_descriptor z then 0xFFFFFFFFFFFFFFFF else en_compressed_size z))))).
    { intros mm TY' LM' SDN. unfold thorough in TY'. rewrite SDN in TY'. destruct TY' as (HR & HL & _).
      pose proof (midway_new cd D view inv OK s1 (en_compression z) (if en_data_descriptor z then 0xFFFFFFFFFFFFFFFF else en_compressed_size z)) as MN.
      rewrite ahead_take, (whole_data s1 z _ ltac:(now rewrite D1) eq_refl), D1, M in MN.
      refine (polls_on cd D view inv OK LV _ _ _ out _ DE HR _ _ MN _). cbn [dr_new dr_src length]. lia. }
    specialize (PA m TY ltac:(pose proof (later_troubles _ _ LA); lia)).
    destruct (dr_polls (sy_polls y) _) as [ps r']. destruct SM as (LB & NB & SM). rewrite DE in *. cbn [fst snd] in *.
    assert (NF0 : ~ Exists found_bad ps) by (intro X; specialize (NB X); discriminate NB). destruct (SM NF0) as (MW & PR & AE).
    assert (LO : left_ok cd D (s_pos s1) (en_compression z) (data_of z m0) (en_data_descriptor z) (sy_done y) r' (told ps) ((if sy_done y then dr_done else dr_skip) (sy_patience y) (en_data_descriptor z) r'))
      by (destruct (sy_done y); [eapply done_left; eassumption|eapply skip_left; eassumption]).
    pose proof (later_trans _ _ _ LA LB) as LC. pose proof (later_troubles _ _ LC) as LCL. pose proof (delays_troubles (s_sched (dr_src r'))) as DT.
    assert (AN : (if sy_done y then dr_done else dr_skip) (sy_patience y) (en_data_descriptor z) r' <> None).
    { unfold thorough in TY. destruct (sy_done y).
      - unfold dr_done. pose proof (read_answers D LV 1 (sy_patience y) r' ltac:(lia)) as X. destruct (dr_read (sy_patience y) 1 r') as [[|b|e] r2]; try discriminate. now elim X.
      - unfold dr_skip. assert (F : Forall (fun n => 0 < n) (repeat 2048 (sy_patience y))) by (clear; induction (sy_patience y); constructor; [reflexivity|assumption]).
        pose proof (to_end_answers cd D view inv OK LV _ _ _ _ F r' _ MW) as X. rewrite DE, repeat_length in X. cbn [fst] in X. specialize (X ltac:(lia)).
        destruct (dr_to_end (repeat 2048 (sy_patience y)) r') as [[[q|q|q]|] r2]; try discriminate. now elim X. }
    destruct ((if sy_done y then dr_done else dr_skip) (sy_patience y) (en_data_descriptor z) r') as [q|]; [|now elim AN]. cbn [left_ok] in LO; rewrite ?DE in LO; cbn [fst snd] in LO.
    destruct LO as [(c & I & ->)|[(X & _)|[(SDN & NE2 & _)|(j & s' & J & LE & PS & _ & DN & ->)]]]; [|discriminate X| |].
    + right. eexists _, _. split; [reflexivity|]. destruct LC as (_ & u & U). exists c. split; [rewrite U; apply in_or_app; now right|reflexivity].
    + exfalso. apply NE2. specialize (AE (PA SDN)). congruence.
    + rewrite E in J. injection J as <-. pose proof (later_trans _ _ _ LC LE) as LF. destruct LF as (D5 & LF2).
      assert (B' : behind (en_data_descriptor z) (past (s_pos s1 + k) (s_data s)) tail) by (rewrite past_drop, <- drop_drop, <- past_drop, <- past_drop, M; exact B).
      assert (ST : stands (calm s') (s_data s) (s_pos s1 + k)) by (repeat split; [exact D5|exact PS|constructor]).
      destruct (after_behind _ _ _ _ _ ST B') as (s2c & AC & S2 & P2).
      destruct (after_any (en_data_descriptor z) s') as [(c & I & ->)|(A1 & A2 & A3)].
      { right. eexists _, _. split; [reflexivity|]. destruct LF2 as (u & U). exists c. split; [rewrite U; apply in_or_app; now right|reflexivity]. }
      destruct (after_entry (en_data_descriptor z) s') as [s2|e|e]; [|specialize (A1 e eq_refl); congruence|specialize (A2 e eq_refl); congruence].
      destruct (A3 s2 eq_refl) as (LG & AC'). rewrite AC in AC'. injection AC' as ->. cbn [calm s_pos] in P2.
      assert (LH : later s s2) by (exact (later_trans _ _ _ (conj D5 LF2) LG)). pose proof (later_troubles _ _ LH) as LHL.
      destruct (IH m l l2 s2 (proj1 LH) P2 ltac:(lia) TH) as [(s3 & ys1 & L3 & P3 & W3 & V3 & F3)|(ys & q & -> & FQ)].
      * left. exists s3, ({| sd_entry := z; sd_polls := ps; sd_left := Some (sy_done y) |} :: ys1). split; [exact (later_trans _ _ _ LH L3)|]. split; [exact P3|].
        rewrite W3. split; [destruct (d_walk D cfg l2 s3); reflexivity|]. split; [|constructor; [reflexivity|exact F3]].
        constructor; [|exact V3]. split; [reflexivity|]. split; [exact PR|]. cbn [sd_polls sd_left snd]. intros [A|A]; [specialize (AE A); congruence|]. injection A as A. now apply DN.
      * right. eexists _, _. split; [reflexivity|exact (faulty_later _ _ _ LH FQ)].
Qed.
Lemma here_upto : dec_local cd -> forall a xs l, entries_here cd a xs l -> l <> [] -> forall n, len a <= len l + n -> entries_here cd (upto n a) xs (upto (n + len l - len a) l).
Proof.
  intros LC a xs l H NE. induction H as [a|a z out tail xs l H G IH]; intros n L; [replace (n + len a - len a) with n by lia; apply eh_none|]. specialize (IH NE).
  assert (NT : tail <> []) by (destruct G as [|? ? ? ? ? ? [? ? ? R _ _ _ _ _] _]; [exact NE|]; apply top_long in R; apply left_some; lia).
  destruct (entry_split cd a z out tail LC H NT) as (c & -> & C30 & HC). rewrite len_app in *.
  assert (LT : len l <= len tail).
  { clear - G. induction G as [|a z out tail xs l [t m k R _ _ _ _ B] G IH]; [lia|]. apply top_long in R. apply behind_size in B. rewrite len_past in B. lia. }
  assert (TE : upto n (c ++ tail) = c ++ upto (n - len c) tail).
  { rewrite !upto_take, <- (take_drop (len c) (take n _)), take_take, drop_take, N.min_l by lia. now rewrite (take_app_exact (len c) c tail eq_refl), (drop_app_exact (len c) c tail eq_refl). }
  rewrite TE. eapply eh_entry; [apply HC|]. replace (n + len l - (len c + len tail)) with (n - len c + len l - len tail) by lia. apply IH. lia.
Qed.
Lemma walk_recovers cfg a before l' n l1 l2 s : dec_local cd -> len a < 0x10000000000000000 -> entries_here cd a before l' -> l' <> [] -> len a <= len l' + n ->
  s_data s = upto n a -> s_pos s = 0 -> Forall2 (fun x y => thorough (troubles (s_sched s)) (snd x) y) before l1 ->
  (exists ys1 ys2 o, d_walk D cfg (l1 ++ l2) s = (ys1 ++ ys2, o) /\ Forall2 visited_as before ys1 /\ Forall2 (fun y z => sd_left z = Some (sy_done y)) l1 ys1) \/
  exists ys k, d_walk D cfg (l1 ++ l2) s = (ys, Some (Err (UpstreamReadError (IoOther k)))) /\ In (RFail k) (s_sched s).
Proof.
  intros LC LA EH NE L SD SP TH. assert (LU : len (upto n a) <= len a) by (rewrite upto_take, len_take; lia).
  destruct (walk_past cfg (upto n a) ltac:(lia) _ _ _ (here_upto LC _ _ _ EH NE n L) _ l1 l2 s SD ltac:(now rewrite SP) (Nat.le_refl _) TH) as [(s' & ys1 & _ & _ & W & V & F)|(ys & r & W & k & I & ->)].
  - left. rewrite W. destruct (d_walk D cfg l2 s') as [ys2 o]. exists ys1, ys2, o. now repeat split.
  - right. exists ys, k. now split.
Qed.
End Past.
