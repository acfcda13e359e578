(** Proofs: repacking any archive that readers agree on. *)
From Verif Require Import Base BaseFacts SpecFormat SpecCrc SpecArchive SpecRead SpecWrite SpecSize SpecCopy SpecStrict SpecAccept SpecLax SpecRepack SpecInterop SpecThrough SpecAgree
  ZString ZDate Headers Entry IO IOFacts Reader EntryReader Writer Samples AcceptProofs ThroughProofs RepackProofs EndProofs InteropProofs AgreeProofs.

Lemma outcome_crc cd d e c : outcome cd d e = Ok c -> crc32_spec c = en_crc32 (st_entry e).
Proof.
  unfold outcome. destruct (len _ <? 4); [discriminate|]. destruct (negb _); [discriminate|]. destruct (len _ <? 30); [discriminate|]. destruct (_ <? data_start _ _); [discriminate|].
  unfold checked_content. destruct (decoded _ _ _) as [b []]; [|discriminate]. destruct (N.eqb_spec (crc32_spec b) (en_crc32 (st_entry e))) as [E|]; [|discriminate].
  intro H. now injection H as <-.
Qed.
Lemma taken_agreed cd cfg d es vs : taken cd cfg d es -> sights cd d = Some vs -> same_end d -> counted d (len vs) -> len d < 0x10000000000000000 ->
  Forall2 (fun v x => exists f st, fst (file cfg (cursor d)) = Ok f /\ In st (f_entries f) /\ st_entry st = fst x /\ concurs v st /\ v_content v = snd x /\ crc32_spec (snd x) = r_crc (v_listing v)) vs es.
Proof.
  intros (f & O & EM & RE) S SE CT LD.
  assert (OP : fst (file cfg (cursor d)) = Ok f).
  { unfold mem_new in O. destruct (fst (file cfg (cursor d))); cbn in O; try discriminate. now injection O as ->. }
  destruct (both_agree cfg cd (cursor d) f vs OP S SE CT LD) as [CO RD]. specialize (RD ltac:(constructor)).
  assert (X : forall k sts' vs' es', map st_entry sts' = map fst es' -> Forall2 concurs vs' sts' -> 
    (forall i x, nth_error es' i = Some x -> nth_error es (k + i) = Some x) -> (forall i v, nth_error vs' i = Some v -> nth_error vs (k + i) = Some v) ->
    (forall i v, nth_error sts' i = Some v -> nth_error (f_entries f) (k + i) = Some v) ->
    Forall2 (fun v x => exists f st, fst (file cfg (cursor d)) = Ok f /\ In st (f_entries f) /\ st_entry st = fst x /\ concurs v st /\ v_content v = snd x /\ crc32_spec (snd x) = r_crc (v_listing v)) vs' es').
  { intros k sts' vs' es' E' F. revert k es' E'. induction F as [|v st vs' sts' C F IH]; intros k es' E' NE NV NS.
    - destruct es'; [constructor|discriminate].
    - destruct es' as [|x es']; [discriminate|]. cbn [map] in E'. injection E' as E1 E2. constructor.
      + specialize (NE 0%nat x eq_refl). specialize (NV 0%nat v eq_refl). specialize (NS 0%nat st eq_refl). rewrite Nat.add_0_r in *.
        specialize (RE (N.of_nat k) x). specialize (RD (N.of_nat k) v). rewrite Nat2N.id in *. specialize (RE NE). destruct (RD NV) as (e & N1 & R1 & _).
        rewrite NS in N1. injection N1 as <-.
        assert (EA : entry_at f (N.of_nat k) = Some st) by (unfold entry_at; now rewrite Nat2N.id).
        rewrite mem_outcome in RE. cbn [m_file m_data] in RE. rewrite EA in RE.
        rewrite (read_outcome cd f (N.of_nat k) (cursor d) ltac:(constructor)), EA in R1. cbn [s_data cursor] in R1.
        exists f, st. split; [exact OP|]. split; [now apply nth_error_In in NS|]. split; [exact E1|]. split; [exact C|]. split; [now rewrite (R1 _ RE)|].
        rewrite (outcome_crc _ _ _ _ RE). now destruct C as (_ & _ & _ & _ & C & _).
      + apply (IH (Datatypes.S k)); [exact E2| | |].
        * intros i y Y. rewrite Nat.add_succ_l, <- Nat.add_succ_r. now apply NE.
        * intros i y Y. rewrite Nat.add_succ_l, <- Nat.add_succ_r. now apply NV.
        * intros i y Y. rewrite Nat.add_succ_l, <- Nat.add_succ_r. now apply NS. }
  apply (X 0%nat (f_entries f)); try assumption; try (intros; assumption).
Qed.
Lemma repacked_any cd cfg sched d es vs : codec_ok cd -> taken cd cfg d es -> sights cd d = Some vs -> same_end d -> counted d (len vs) -> len d < 0x10000000000000000 ->
  Forall (fun v => v_usize v = len (v_content v)) vs -> Forall (fun x => unwide (fst x) /\ len (snd x) < 0x10000000000000000) es ->
  let '(xs, r, w) := run_archive cd sched (copy_ops es) in
  let d' := w_bytes w in
  r = Ok tt -> Forall (fun x => worked (snd x) = true) xs -> len d' < 0x10000000000000000 -> sizes_tell cd d' (succeeded false xs) ->
  (w_zip64 w = false -> ~ complete_end64 d' 22) -> (w_zip64 w = true \/ len d' <= 0xFFFFFFFF) -> (len d' <= 0xFFFFFFFF \/ ~ found_at (le 4 0x04034b50) d' 0xFFFFFFFF) ->
  exists vs', sights cd d' = Some vs' /\ Forall2 same_sight vs vs'.
Proof.
  intros K TK S SE CT LD US PO. pose proof (taken_agreed cd cfg d es vs TK S SE CT LD) as TA.
  assert (G : Forall op_good (copy_ops es)).
  { apply Forall_map. clear - TA PO. induction TA as [|v x vs es (f & st & OP & I & E & _) _ IH]; constructor.
    - inversion PO as [|? ? (P1 & P2) _]; subst. split; [|exact P2]. unfold op_fine. cbn [op_entry]. rewrite <- E in *. now apply (opened_fine cfg (cursor d) f).
    - inversion PO; subst. now apply IH. }
  pose proof (others_see cd sched (copy_ops es) K G) as OS. pose proof (calls_made cd sched (copy_ops es)) as AC.
  destruct (run_archive cd sched (copy_ops es)) as [[xs r] w]. cbn [fst] in AC. cbv zeta in *. intros RO WK LB SZ NC Z NF. rewrite copies_comment in *.
  assert (OC : others_clear (w_zip64 w) [] (w_bytes w)).
  { split; [discriminate|]. split; [|exact NC]. intros q C. pose proof (complete_bound _ _ C). change (len (@nil byte)) with 0. lia. }
  specialize (OS RO LB). rewrite (copies_done es xs AC WK) in *.
  destruct OS as (vs' & S' & F'); try assumption.
  - eapply Forall_impl; [|exact WK]. intros [o [| |]] W; try discriminate W. reflexivity.
  - apply Forall_map, Forall_forall. intros x _ it LV. unfold straight, i_swapped. inversion LV; subst; cbn; discriminate.
  - apply Forall_map, Forall_forall. intros x _. exact I.
  - exists vs'. split; [exact S'|]. clear - TA F' US. revert vs' F'.
    induction TA as [|v x vs es (f & st & _ & _ & E & SH & C & CR) _ IH]; intros vs' F'; inversion F' as [|? v' ? vs'' S1 S2]; subst; inversion US; subst; constructor; [|now apply IH].
    cbn [snd] in S1. destruct S1 as (e & OE & A1 & A2 & A3 & A4 & A8 & A9 & A10 & A5 & A6 & A7). cbn [op_entry] in OE. injection OE as <-. cbn [gives] in A5.
    destruct SH as (B1 & _ & B2 & B3 & _ & _ & _ & B7 & B8 & B9 & _). rewrite E in *.
    unfold same_sight. rewrite A1, A3, A4, A6, A7, A8, A9, A10, A5, B1, B2, B7, B8, B9, <- C. cbn [zd_date zd_time].
    rewrite <- C in CR. repeat split; try assumption; try (now symmetry).
    rewrite (method_of_inv _ _ A2), (method_of_inv _ _ B3). reflexivity.
Qed.
