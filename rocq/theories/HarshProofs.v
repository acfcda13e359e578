(** Proofs: troublesome seeks around any decoder. *)
From Verif Require Import Base BaseFacts Crc32 SpecFormat SpecCrc SpecArchive SpecRead SpecWrite SpecMade ZString ZDate Headers ExtraField Entry IO IOFacts Locator Reader ReaderFacts
  EntryReader EntryReaderFacts EntryProofs ReadProofs Writer MadeProofs ReaderPolls SpecReadPolls ReadPollProofs GiveUp Seeks SpecSeeks SeekProofs DecoderPolls SpecDecoder DecoderProofs
  SpecAwake AwakeProofs SpecEndure EndureProofs RemainsProofs DecoderSeeks SpecHarsh.
Import SpecReadPolls SpecSeeks SeekProofs.

Section Harsh.
Context (cd : codec) (D : decoder) (view : dg_state D -> compression * bytes * bytes) (inv : dg_state D -> bytes -> Prop) (OK : decoder_ok cd D view inv).
Notation midway := (midway cd D view inv).

Lemma dr_polls_calls : forall l (r : dreader D), map fst (fst (dr_polls l r)) = l.
Proof. induction l as [|c l IH]; intro r; cbn [dr_polls]; [reflexivity|]. destruct (dr_poll c r) as [p r1]. specialize (IH r1). destruct (dr_polls l r1). cbn [fst map] in *. now f_equal. Qed.
(** the errors of polls that do not find the data malformed are the source's *)
Lemma polls_blamed p0 c W l : forall r out, midway p0 c W r out -> ~ Exists found_bad (fst (dr_polls l r)) ->
  forall q x, In (q, RErr x) (fst (dr_polls l r)) -> exists k, x = IoOther k /\ In (RFail k) (s_sched (dr_src r)).
Proof.
  induction l as [|y l IH]; intros r out M B q x I; cbn [dr_polls] in *; [destruct I|].
  destruct (poll_room D y r) as (n & EP & _). rewrite EP in *. pose proof (poll_midway cd D view inv OK p0 c W r out n M) as P.
  destruct (dr_poll_read n r) as [p r1]. destruct P as (_ & (u & U) & P). specialize (IH r1). destruct (dr_polls l r1) as [ps r2] eqn:E. cbn [fst] in *.
  assert (B2 : ~ Exists found_bad ps) by (intro X; apply B; now right).
  assert (UP : forall k, In (RFail k) (s_sched (dr_src r1)) -> In (RFail k) (s_sched (dr_src r))) by (intros k X; rewrite U; apply in_or_app; now right).
  destruct p as [|b|e].
  - destruct I as [I|I]; [discriminate I|]. destruct (IH out P B2 q x I) as (k & -> & X). eauto.
  - destruct I as [I|I]; [discriminate I|]. destruct (IH _ (proj1 (proj2 P)) B2 q x I) as (k & -> & X). eauto.
  - destruct P as [((k & v & -> & V & IK) & P)|(MA & _)]; [|elim B; left; exact MA].
    destruct I as [I|I]; [injection I as _ <-; exists k; split; [reflexivity|rewrite V; apply in_or_app; now left]|].
    destruct (IH out P B2 q x I) as (k' & -> & X). eauto.
Qed.
Lemma dh_use_outcome f u h : let '(x, h') := dh_use D f u h in kept h h' /\ dh_outcome cd f h u x.
Proof.
  destruct u as [[i n] l]. unfold dh_use, dh_outcome. pose proof (sim_reader_at f i h n) as H. pose proof (harsh_use_outcome cd f (i, n, []) h) as HU. unfold harsh_use, use_outcome in HU.
  destruct (h_reader_at f i n h) as [[[r|] n'] h']; [|exact HU]. destruct r as [[r e]|x|x]; [|exact HU..].
  destruct H as (K & _ & H). destruct H as [H|[(c & p & _ & H)|[H _]]]; [|discriminate H|discriminate H].
  cbn [er_polls] in HU. destruct HU as (_ & HU & _).
  destruct (opened_at f i _ r e _ H) as (_ & -> & DS & PS). cbn [er_src er_comp er_limit er_new].
  assert (A : region (s_data (h_src h)) e = ahead (h_src h') (en_compressed_size (st_entry e))) by (rewrite region_take, ahead_take; congruence).
  set (c := en_compression (st_entry e)). set (z := en_compressed_size (st_entry e)).
  pose proof (midway_new cd D view inv OK (h_src h') c z) as M.
  pose proof (polls_midway cd D view inv OK _ c _ l _ _ M) as P. pose proof (dr_polls_calls l (dr_new D (h_src h') c z)) as LC.
  destruct (dr_polls l (dr_new D (h_src h') c z)) as [ps r'] eqn:E. destruct P as (D1 & (u & U) & B & _). cbn [fst dr_src dr_new] in *. cbv zeta. fold c. rewrite A. fold z.
  split; [|split; [exact HU|split; [exact LC|split; [exact B|]]]].
  - eapply kept_trans; [exact K|]. split; [exact D1|]. split; [reflexivity|]. split; [now exists u|now exists []].
  - intros ps1 ps2 -> NB. destruct (dr_polls_part _ _ _ _ _ _ E) as (r1 & E1).
    pose proof (polls_midway cd D view inv OK _ c _ (firstn (length ps1) l) _ _ M) as P. pose proof (polls_blamed _ c _ (firstn (length ps1) l) _ _ M) as Q. rewrite E1 in P, Q.
    destruct P as (_ & _ & _ & G). destruct (G NB) as (G1 & G2). cbn [app fst dr_new dr_src] in *. split; [exact (midway_prefix _ _ _ _ _ _ _ _ _ G1)|]. split; [exact G2|].
    intros q x I. destruct (Q NB q x I) as (k & -> & X). exists k. split; [reflexivity|]. left. destruct K as (_ & _ & (v & V) & _). rewrite V. apply in_or_app. now right.
Qed.
Lemma dh_outcome_kept f h h' u x : kept h h' -> dh_outcome cd f h' u x -> dh_outcome cd f h u x.
Proof.
  intros K. unfold dh_outcome. destruct u as [[i n] l], x as [[[e|x|x]|] ps]; cbv zeta; pose proof K as (DA & _); rewrite ?DA.
  - intros (O & C & B & G). split; [exact O|]. split; [exact C|]. split; [exact B|]. intros p1 p2 E NB. destruct (G p1 p2 E NB) as (G1 & G2 & G3). split; [exact G1|]. split; [exact G2|].
    intros q y I. destruct (G3 q y I) as (k & -> & R). exists k. split; [reflexivity|exact (kept_reports _ _ _ K R)].
  - intros (E & [H|[(c & I & H)|[R H]]]); (split; [exact E|]); [now left|right; left; exists c; split; [exact (kept_reports _ _ _ K I)|exact H]|].
    right. right. split; [exact R|]. intro Ro. exact (H (kept_roomy _ _ K Ro)).
  - intros (E & [H|[(c & I & H)|[R H]]]); (split; [exact E|]); [now left|right; left; exists c; split; [exact (kept_reports _ _ _ K I)|exact H]|].
    right. right. split; [exact R|]. intro Ro. exact (H (kept_roomy _ _ K Ro)).
  - intros [E L]. split; [exact E|]. pose proof (kept_waits _ _ K). lia.
Qed.
Lemma dh_history f us : forall h, let '(xs, h') := dh_uses D f us h in kept h h' /\ Forall2 (dh_outcome cd f h) us xs.
Proof.
  induction us as [|u us IH]; intro h; cbn [dh_uses]; [split; [apply kept_refl|constructor]|].
  pose proof (dh_use_outcome f u h) as U. destruct (dh_use D f u h) as [x h1]. specialize (IH h1). destruct (dh_uses D f us h1) as [xs h2].
  destruct U as (K & U), IH as (K2 & IH). split; [exact (kept_trans _ _ _ K K2)|]. constructor; [exact U|].
  induction IH; constructor; [|assumption]. now apply (dh_outcome_kept f h h1).
Qed.

Context (LV : decoder_lively D).
Lemma dh_entry ns f i n h : Forall (fun n => 0 < n) ns ->
  (forall e, opened_from f i (s_data (h_src h)) = Ok e ->
     (delays (s_sched (h_src h)) + length (fst (decoded cd (en_compression (st_entry e)) (region (s_data (h_src h)) e))) < length ns)%nat) ->
  exists x, dh_read_entry D ns f i n h = Some x /\
  match x with
  | Finished r =>
      let y := read_entry cd f i (cursor (s_data (h_src h))) in
      r = y \/ (r = Err (UpstreamReadError UnexpectedEof) /\ y = Err (UpstreamReadError InvalidData)) \/
      (exists c, reports h c /\ r = Err (UpstreamReadError (IoOther c))) \/
      r = Err (UpstreamReadError InvalidInput) /\ (roomy h -> forall b, y <> Ok b)
  | Left => (n < waits h)%nat
  end.
Proof.
  intros FN L. pose proof (sim_reader_at f i h n) as H. pose proof (harsh_entry cd f i n h) as HE. unfold dh_read_entry. unfold h_read_entry in HE.
  destruct (h_reader_at f i n h) as [[[r|] n'] h']; [|exists Left; now split]. destruct H as (K & _ & H). destruct r as [[r e]|x|x].
  2,3: eexists; split; [reflexivity|]; cbv zeta; destruct HE as [HE|[HE|HE]]; auto.
  destruct H as [H|[(c & p & _ & H)|[H _]]]; [|discriminate H|discriminate H].
  destruct (entry_settles cd D view inv OK LV ns f i (h_src h) FN) as (x & E & C).
  { intros r1 e1 s1 O. rewrite H in O. injection O as <- <- <-. pose proof (opened_faults f i (h_src h)) as F. rewrite H in F. specialize (L e F).
    pose proof K as (_ & _ & (v & V) & _). rewrite V, delays_app in L. lia. }
  unfold d_read_entry in E. rewrite H in E. rewrite E. exists (Finished x). split; [reflexivity|]. cbv zeta in *. destruct C as [C|[C|(k & I & C)]]; [now left|right; now left|].
  right. right. left. exists k. split; [now left|exact C].
Qed.
Lemma dh_afterwards us ns f i n h : Forall (fun n => 0 < n) ns ->
  (forall e, opened_from f i (s_data (h_src h)) = Ok e ->
     (delays (s_sched (h_src h)) + length (fst (decoded cd (en_compression (st_entry e)) (region (s_data (h_src h)) e))) < length ns)%nat) ->
  let '(_, h') := dh_uses D f us h in
  exists x, dh_read_entry D ns f i n h' = Some x /\
  match x with
  | Finished r =>
      let y := read_entry cd f i (cursor (s_data (h_src h))) in
      r = y \/ (r = Err (UpstreamReadError UnexpectedEof) /\ y = Err (UpstreamReadError InvalidData)) \/
      (exists c, reports h' c /\ r = Err (UpstreamReadError (IoOther c))) \/
      r = Err (UpstreamReadError InvalidInput) /\ (roomy h -> forall b, y <> Ok b)
  | Left => (n < waits h')%nat
  end.
Proof.
  intros FN L. pose proof (dh_history f us h) as H. destruct (dh_uses D f us h) as [xs h']. destruct H as (K & _). pose proof K as (DA & _ & (v & V) & _).
  destruct (dh_entry ns f i n h' FN) as (x & E & C).
  { rewrite DA. intros e O. specialize (L e O). rewrite V, delays_app in L. lia. }
  exists x. split; [exact E|]. rewrite DA in C. destruct x as [r|]; [|exact C]. cbv zeta in *.
  destruct C as [C|[C|[C|[R C]]]]; [now left|right; now left|right; right; now left|]. right. right. right. split; [exact R|]. intro Ro. exact (C (kept_roomy _ _ K Ro)).
Qed.

(** the same for any buffers: when nothing is returned, there were too few *)
Lemma dh_told us ns f i n h : Forall (fun n => 0 < n) ns ->
  let '(_, h') := dh_uses D f us h in
  match dh_read_entry D ns f i n h' with
  | Some (Finished r) =>
      let y := read_entry cd f i (cursor (s_data (h_src h))) in
      r = y \/ (r = Err (UpstreamReadError UnexpectedEof) /\ y = Err (UpstreamReadError InvalidData)) \/
      (exists c, reports h' c /\ r = Err (UpstreamReadError (IoOther c))) \/
      r = Err (UpstreamReadError InvalidInput) /\ (roomy h -> forall b, y <> Ok b)
  | Some Left => (n < waits h')%nat
  | None => exists e, opened_from f i (s_data (h_src h)) = Ok e /\
      (length ns <= delays (s_sched (h_src h)) + length (fst (decoded cd (en_compression (st_entry e)) (region (s_data (h_src h)) e))))%nat
  end.
Proof.
  intros FN. destruct (opened_from f i (s_data (h_src h))) as [e|x|x] eqn:OE.
  1: destruct (Nat.le_gt_cases (length ns) (delays (s_sched (h_src h)) + length (fst (decoded cd (en_compression (st_entry e)) (region (s_data (h_src h)) e))))) as [LE|GT].
  2-4: (assert (L : forall e0, opened_from f i (s_data (h_src h)) = Ok e0 -> (delays (s_sched (h_src h)) + length (fst (decoded cd (en_compression (st_entry e0)) (region (s_data (h_src h)) e0))) < length ns)%nat) by (intros e0 E0; rewrite OE in E0; first [discriminate E0 | injection E0 as <-; exact GT]);
    pose proof (dh_afterwards us ns f i n h FN L) as H; destruct (dh_uses D f us h) as [xs h']; destruct H as (x0 & -> & H); exact H).
  pose proof (dh_history f us h) as H. destruct (dh_uses D f us h) as [xs h']. destruct H as (K & _). pose proof K as (DA & _).
  pose proof (sim_reader_at f i h' n) as H. pose proof (harsh_entry cd f i n h') as HE. unfold dh_read_entry. unfold h_read_entry in HE.
  destruct (h_reader_at f i n h') as [[[r|] n'] h2]; [|exact HE]. destruct H as (_ & _ & H). rewrite DA in HE.
  assert (BACK : forall r : res bytes, r = Err (UpstreamReadError InvalidInput) /\ (roomy h' -> forall b, read_entry cd f i (cursor (s_data (h_src h))) <> Ok b) ->
    r = Err (UpstreamReadError InvalidInput) /\ (roomy h -> forall b, read_entry cd f i (cursor (s_data (h_src h))) <> Ok b)) by (intros r0 (R & C); split; [exact R|]; intro Ro; exact (C (kept_roomy _ _ K Ro))).
  destruct r as [[r e2]|x|x]. 2,3: cbv zeta; destruct HE as [HE|[HE|HE]]; auto.
  destruct H as [H|[(c & p & _ & H)|[H _]]]; [|discriminate H|discriminate H].
  pose proof (decoder_reads cd D view inv OK ns f i (h_src h') FN) as DR. unfold d_read_entry in DR. rewrite H, DA in DR.
  destruct (dr_to_end_checked ns (st_entry e2) (dr_new D (er_src r) (er_comp r) (er_limit r))) as [x|]; [|exists e; now split].
  cbv zeta in *. destruct DR as [C|[C|(k & I & C)]]; [now left|right; now left|]. right. right. left. exists k. split; [now left|exact C].
Qed.

Lemma made_harsh cfg xs body z d : codec_ok cd -> made cd xs body z d -> unambiguous cd cfg (map fst xs) xs z d ->
  exists f, mem_new cfg d = Ok {| m_data := d; m_file := f |} /\
  forall h, s_data (h_src h) = d -> roomy h ->
    (forall n, match fst (fst (h_file cfg n h)) with
       | Finished r => r = Ok f \/ (exists c, reports h c /\ r = Err (UpstreamReadError (IoOther c))) \/ r = Err (UpstreamReadError InvalidInput) /\ f_entries f = []
       | Left => (n < waits h)%nat
       end) /\
    forall us, let '(vs, h') := dh_uses D f us h in
      Forall2 (dh_outcome cd f h) us vs /\
      forall i no64 o data ns n, nth_error (succeeded false xs) (N.to_nat i) = Some (no64, o) -> holds cd o data -> (forall it, leaves cd no64 o it -> straight it) ->
        Forall (fun n => 0 < n) ns -> (delays (s_sched (h_src h)) + length data < length ns)%nat ->
        dh_read_entry D ns f i n h' = Some (Finished (Ok data)) \/
        (exists c, reports h' c /\ dh_read_entry D ns f i n h' = Some (Finished (Err (UpstreamReadError (IoOther c))))) \/
        (n < waits h')%nat /\ dh_read_entry D ns f i n h' = Some Left.
Proof.
  intros CK M U. destruct (made_back cd cfg (cursor d) _ _ _ _ CK M U eq_refl (Forall_nil _)) as (f & F & MN & _ & _ & _ & RD). exists f. split; [exact MN|].
  intros h DA Ro. split.
  - intro n. pose proof (harsh_opening cfg n h) as H. destruct (h_file cfg n h) as [[x n'] h']. cbn [fst]. destruct H as (_ & H). destruct x as [r|]; [|exact H]. rewrite DA, F in H.
    destruct H as [H|[H|[R H]]]; [now left|right; now left|right; right; split; [exact R|exact (H Ro f eq_refl)]].
  - intro us. pose proof (dh_history f us h) as HI. pose proof (fun ns i n => dh_afterwards us ns f i n h) as HA. destruct (dh_uses D f us h) as [vs h']. split; [exact (proj2 HI)|].
    intros i no64 o data ns n NT HO ST FN L. pose proof (proj1 (RD i no64 o data NT HO ST)) as R.
    destruct (opened_or cd f i (cursor d) data R) as [(r & e & s' & O & _ & DE)|(x & s' & O & (c & IC & _))]; [|destruct IC].
    destruct (HA ns i n FN) as (x & E & C).
    { rewrite DA. intros e' O'. unfold opened_from in O'. rewrite O in O'. cbn [fst] in O'. injection O' as <-. change (s_data (cursor d)) with d in DE. rewrite DE. exact L. }
    rewrite E. destruct x as [x|]; [|right; right; split; [exact C|reflexivity]]. rewrite DA, R in C. cbv zeta in C.
    destruct C as [->|[[_ C]|[(c & I & ->)|[_ C]]]]; [now left|discriminate C|right; left; now exists c|now elim (C Ro data)].
Qed.
End Harsh.
