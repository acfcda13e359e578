(** Equal archives come from equal entries. *)
From Verif Require Import Base BaseFacts SpecFormat SpecArchive SpecRead ZString ZDate Headers ExtraField Entry IO IOFacts Reader EntryReader Writer SpecWrite RoundTrip Zip64Proofs SpecTold.

Lemma straight_sizes it : straight it -> put_usize it = i_usize it /\ put_csize it = i_csize it.
Proof. unfold straight, put_usize, put_csize. destruct (i_swapped it); [intro H; rewrite (H eq_refl); auto|auto]. Qed.
Lemma same_start (p q y z : bytes) : p ++ y = q ++ z -> length p = length q -> p = q.
Proof.
  revert q. induction p as [|x p IH]; intros [|x' q] E L; try discriminate; [reflexivity|].
  cbn in E, L. injection E as -> E. injection L as L. f_equal. now apply IH.
Qed.
Lemma same_entry d a b st : as_written d a st -> as_written d b st -> texts_kept a st -> texts_kept b st -> indistinct a b.
Proof.
  unfold as_written, texts_kept. intros (N1 & C1 & M1 & T1 & I1 & E1 & S1 & R1 & U1 & Z1 & O1 & _ & D1) (N2 & C2 & M2 & T2 & I2 & E2 & S2 & R2 & U2 & Z2 & O2 & _ & D2) K1 K2.
  unfold indistinct. repeat (split; [congruence|]). split.
  - intros Sa Sb. apply straight_sizes in Sa as [Ua Za]. apply straight_sizes in Sb as [Ub Zb]. split; [congruence|].
    rewrite <- O1 in D1. rewrite <- O2 in D2. destruct D1 as [y1 D1]. destruct D2 as [y2 D2]. rewrite D1 in D2 at 1. apply app_inv_head in D2.
    assert (L : len (i_data a) = len (i_data b)) by (unfold i_csize in *; congruence).
    assert (L' : length (i_data a) = length (i_data b)) by (unfold len in L; lia).
    now apply (same_start _ _ y1 y2).
  - intros Ta Tb. destruct (K1 Ta) as [(A1 & _) (A2 & _)]. destruct (K2 Tb) as [(B1 & _) (B2 & _)]. split; congruence.
Qed.
Lemma comment_unique a b z : comment_reads_as a z -> comment_reads_as b z -> a = b.
Proof. intros X Y; inversion X; inversion Y; subst; congruence. Qed.
(** two accounts of what an archive reads back as *)
Definition reads_back cd f d s xs z c : Prop :=
  f_zip64 f = z /\ comment_reads_as c (f_comment f) /\
  Forall2 (fun x st => exists it, leaves cd (fst x) (snd x) it /\ as_written d it st /\ texts_kept it st) (succeeded false xs) (f_entries f) /\
  (forall i no64 o data, nth_error (succeeded false xs) (N.to_nat i) = Some (no64, o) -> holds cd o data ->
     (forall it, leaves cd no64 o it -> straight it) -> read_entry cd f i s = Ok data).
Lemma same_back cd f d s xs1 z1 c1 xs2 z2 c2 : reads_back cd f d s xs1 z1 c1 -> reads_back cd f d s xs2 z2 c2 ->
  z1 = z2 /\ c1 = c2 /\
  Forall2 (fun x y => exists a b, leaves cd (fst x) (snd x) a /\ leaves cd (fst y) (snd y) b /\ indistinct a b) (succeeded false xs1) (succeeded false xs2) /\
  (forall i n1 o1 d1 n2 o2 d2, nth_error (succeeded false xs1) i = Some (n1, o1) -> nth_error (succeeded false xs2) i = Some (n2, o2) ->
     holds cd o1 d1 -> holds cd o2 d2 -> (forall it, leaves cd n1 o1 it -> straight it) -> (forall it, leaves cd n2 o2 it -> straight it) -> d1 = d2).
Proof.
  intros (Z1 & C1 & T1 & D1) (Z2 & C2 & T2 & D2). split; [congruence|]. split; [now apply (comment_unique _ _ (f_comment f))|]. split.
  - apply (Forall2_weaken (fun x y => exists st, (exists a, leaves cd (fst x) (snd x) a /\ as_written d a st /\ texts_kept a st) /\
       (exists b, leaves cd (fst y) (snd y) b /\ as_written d b st /\ texts_kept b st))).
    + intros x y (st & (a & La & Wa & Ka) & (b & Lb & Wb & Kb)). exists a, b. split; [exact La|]. split; [exact Lb|]. exact (same_entry _ a b st Wa Wb Ka Kb).
    + revert T1 T2. generalize (succeeded false xs1), (succeeded false xs2), (f_entries f). clear. intros l m k T. revert m.
      induction T as [|x st l k H T IH]; intros m T2; inversion T2; subst; constructor; eauto.
  - intros i n1 o1 d1 n2 o2 d2 I1 I2 H1 H2 S1 S2. rewrite <- (Nat2N.id i) in I1, I2.
    pose proof (D1 _ _ _ _ I1 H1 S1) as X. pose proof (D2 _ _ _ _ I2 H2 S2) as Y. congruence.
Qed.
Lemma told_apart cd cfg sched1 sched2 l1 l2 : codec_ok cd -> Forall op_good l1 -> Forall op_good l2 ->
  let '(xs1, r1, w1) := run_archive cd sched1 l1 in
  let '(xs2, r2, w2) := run_archive cd sched2 l2 in
  r1 = Ok tt -> r2 = Ok tt -> unambiguous cd cfg l1 xs1 (w_zip64 w1) (w_bytes w1) -> unambiguous cd cfg l2 xs2 (w_zip64 w2) (w_bytes w2) ->
  w_bytes w1 = w_bytes w2 ->
  w_zip64 w1 = w_zip64 w2 /\ last_comment l1 = last_comment l2 /\
  Forall2 (fun x y => exists a b, leaves cd (fst x) (snd x) a /\ leaves cd (fst y) (snd y) b /\ indistinct a b) (succeeded false xs1) (succeeded false xs2) /\
  (forall i n1 o1 d1 n2 o2 d2, nth_error (succeeded false xs1) i = Some (n1, o1) -> nth_error (succeeded false xs2) i = Some (n2, o2) ->
     holds cd o1 d1 -> holds cd o2 d2 -> (forall it, leaves cd n1 o1 it -> straight it) -> (forall it, leaves cd n2 o2 it -> straight it) -> d1 = d2).
Proof.
  intros OK G1 G2. pose proof (read_back cd cfg sched1) as A. pose proof (read_back cd cfg sched2) as B.
  specialize (A (cursor (w_bytes (snd (run_archive cd sched1 l1)))) l1 OK G1). specialize (B (cursor (w_bytes (snd (run_archive cd sched2 l2)))) l2 OK G2).
  destruct (run_archive cd sched1 l1) as [[xs1 r1] w1]. destruct (run_archive cd sched2 l2) as [[xs2 r2] w2]. cbn [snd] in A, B.
  intros R1 R2 U1 U2 E. cbv zeta in A, B.
  destruct (A R1 U1 eq_refl (Forall_nil _)) as (f & F1 & _ & Z1 & C1 & T1 & D1). destruct (B R2 U2 eq_refl (Forall_nil _)) as (g & F2 & _ & Z2 & C2 & T2 & D2).
  rewrite <- E in F2, T2, D2. rewrite F1 in F2. injection F2 as <-.
  apply (same_back cd f (w_bytes w1) (cursor (w_bytes w1))); (split; [assumption|split; [assumption|split; [assumption|]]]).
  - intros i no64 o data I HO ST. exact (proj1 (D1 i no64 o data I HO ST)).
  - intros i no64 o data I HO ST. exact (proj1 (D2 i no64 o data I HO ST)).
Qed.
