(** Proofs: walks through the stream around any decoder. *)
From Verif Require Import Base BaseFacts SpecFormat SpecCrc SpecArchive SpecRead SpecStream SpecStrict SpecExact SpecThrough ZString Headers HeadersFacts ExtraField
  Entry IO IOFacts Reader ReaderFacts LfhFacts EntryReader EntryReaderFacts EntryProofs ReadProofs StreamReader StreamProofs RoundTrip StreamWalk FrontProofs
  StrictProofs ExactProofs ExactTop ThroughProofs FaultWalkProofs ReaderPolls SpecReadPolls ReadPollProofs DecoderPolls SpecDecoder DecoderProofs DecoderWalk SpecWalk.
Arguments N.mul : simpl never.
Arguments N.add : simpl never.
Arguments N.sub : simpl never.
Arguments N.min : simpl never.

Section Walk.
Context (cd : codec) (D : decoder) (view : dg_state D -> compression * bytes * bytes) (inv : dg_state D -> bytes -> Prop) (OK : decoder_ok cd D view inv).

Notation midway := (midway cd D view inv).
(** what leaving an entry comes to *)
Definition left_ok (p0 : N) (c : compression) (W : bytes) (desc is_done : bool) (r : dreader D) (out : bytes) (x : option (res source)) : Prop :=
  match x with
  | None => True
  | Some y =>
    faulty (dr_src r) y \/
    snd (decoded cd c W) = false /\ (exists e, malformed e /\ y = Err (UpstreamReadError e)) \/
    is_done = true /\ out <> fst (decoded cd c W) /\ y = Err EOFNotReached \/
    exists k s', entry_span cd c W = Some k /\ later (dr_src r) s' /\ s_pos s' = p0 + k /\ snd (decoded cd c W) = true /\ (is_done = true -> out = fst (decoded cd c W)) /\ y = after_entry desc s'
  end.
Lemma read_midway p0 c W n : 0 < n -> forall k r out, midway p0 c W r out ->
  let '(p, r') := dr_read k n r in later (dr_src r) (dr_src r') /\
  match p with
  | RPend => True
  | RGot b => midway p0 c W r' (out ++ b) /\ (b = [] -> decoded cd c W = (out, true) /\ exists j, entry_span cd c W = Some j /\ s_pos (dr_src r') = p0 + j)
  | RErr e => faulty (dr_src r) (Err (UpstreamReadError e) : res source) \/ malformed e /\ snd (decoded cd c W) = false
  end.
Proof.
  intros N0. induction k as [|k IH]; intros r out M; cbn [dr_read]; [split; [apply later_refl|exact I]|].
  pose proof (poll_midway cd D view inv OK p0 c W r out n M) as P. destruct (dr_poll_read n r) as [p r1]. destruct P as (D1 & U1 & P). destruct p as [|b|e].
  - specialize (IH r1 out P). destruct (dr_read k n r1) as [p r']. assert (LA : later (dr_src r) (dr_src r1)) by (split; assumption). destruct IH as (LB & IH).
    split; [exact (later_trans _ _ _ LA LB)|]. destruct p as [| |e]; try exact IH. destruct IH as [F|F]; [left; exact (faulty_later _ _ _ LA F)|now right].
  - split; [split; assumption|]. destruct P as (_ & P & E). split; [exact P|]. intro B. now apply E.
  - split; [split; assumption|]. destruct P as [((j & u & -> & U & J) & _)|P]; [left|now right]. exists j. split; [|reflexivity]. rewrite U. apply in_or_app. now left.
Qed.
Lemma done_left p0 c W desc k r out : midway p0 c W r out -> left_ok p0 c W desc true r out (dr_done k desc r).
Proof.
  intro M. unfold dr_done. pose proof (read_midway p0 c W 1 eq_refl k r out M) as P. destruct (dr_read k 1 r) as [[|b|e] r']; [exact I| |].
  - destruct P as (LA & MB & E). destruct (N.eqb_spec (len b) 0) as [Z|Z]; cbn [negb].
    + assert (b = []) by (destruct b; [reflexivity|unfold len in Z; cbn [length] in Z; lia]). destruct (E H) as (DE & j & J & P). right. right. right.
      exists j, (dr_src r'). rewrite DE. cbn [fst snd]. repeat split; auto; apply LA.
    + right. right. left. split; [reflexivity|]. split; [|reflexivity]. intro X. apply midway_prefix in MB. rewrite <- X in MB. apply prefix_full in MB. subst b. apply Z. reflexivity.
  - destruct P as (_ & [F|(MA & S)]); [left; exact F|right; left]. split; [exact S|]. now exists e.
Qed.
Lemma skip_left p0 c W desc k r out : midway p0 c W r out -> left_ok p0 c W desc false r out (dr_skip k desc r).
Proof.
  intro M. unfold dr_skip. assert (F : Forall (fun n => 0 < n) (repeat 2048 k)) by (clear; induction k; constructor; [reflexivity|assumption]).
  pose proof (to_end_midway cd D view inv OK p0 c W _ F r out M) as P. destruct (dr_to_end (repeat 2048 k) r) as [[[b|e|?]|] r']; [| |destruct P|exact I].
  - destruct P as (DE & _ & D1 & U & j & J & P). right. right. right. exists j, (dr_src r'). rewrite DE. cbn [fst snd]. repeat split; auto. discriminate.
  - destruct P as [(j & -> & J)|((e1 & -> & MA) & S)]; [left; now exists j|right; left]. split; [exact S|]. now exists e1.
Qed.

(** one entry *)
Lemma stay_midway s1 z l : len (s_data s1) < 0x10000000000000000 ->
  let c := en_compression z in let W := data_of z (past (s_pos s1) (s_data s1)) in
  let '(ps, r') := dr_polls l (dr_new D s1 c (if en_data_descriptor z then 0xFFFFFFFFFFFFFFFF else en_compressed_size z)) in
  later s1 (dr_src r') /\ (Exists found_bad ps -> snd (decoded cd c W) = false) /\
  (~ Exists found_bad ps -> midway (s_pos s1) c W r' (told ps) /\ prefix (told ps) (fst (decoded cd c W)) /\ (Exists at_end ps -> decoded cd c W = (told ps, true))).
Proof.
  intro L. cbv zeta. set (n := if en_data_descriptor z then 0xFFFFFFFFFFFFFFFF else en_compressed_size z). pose proof (polls_midway cd D view inv OK _ _ _ l _ _ (midway_new cd D view inv OK s1 (en_compression z) n)) as P.
  rewrite ahead_take in P. change (take n (drop (s_pos s1) (s_data s1))) with (take (if en_data_descriptor z then 0xFFFFFFFFFFFFFFFF else en_compressed_size z) (drop (s_pos s1) (s_data s1))) in P.
  rewrite (whole_data s1 z _ L eq_refl) in P. destruct (dr_polls l (dr_new D s1 (en_compression z) n)) as [ps r'].
  destruct P as (D1 & U & B & G). split; [split; assumption|]. split; [exact B|]. intro H. destruct (G H) as (G1 & G2). cbn [app] in *. split; [exact G1|].
  split; [exact (midway_prefix _ _ _ _ _ _ _ _ _ G1)|exact G2].
Qed.
Lemma walk_takes cfg d : len d < 0x10000000000000000 -> forall t xs, goes cd t xs -> forall l s, s_data s = d -> past (s_pos s) d = t ->
  let '(ys, o) := d_walk D cfg l s in
  Forall2 visited_as (firstn (length ys) xs) ys /\ Forall no_complaint ys /\
  match o with
  | None => True
  | Some (Ok _) => length ys = length xs
  | Some r => faulty s r \/ r = Err EOFNotReached /\ exists ys0 y x, ys = ys0 ++ [y] /\ nth_error xs (length ys0) = Some x /\ told (sd_polls y) <> snd x
  end.
Proof.
  intros LD t xs G. induction G as [t|t tp m z out k tail xs R T Rd DE E B G IH]; intros l s DS P; (destruct l as [|y l]; cbn [d_walk]; [repeat split; constructor|]).
  - pose proof (next_any cfg s) as NX. destruct (next_ends cfg (calm s)) as (s' & N0); [constructor|..].
    { exists (firstn (N.to_nat (s_pos s)) (s_data s)), t. cbn [calm s_data s_pos]. subst d. rewrite <- P. unfold past. rewrite firstn_skipn. split; [reflexivity|].
      apply (f_equal len) in P. rewrite len_past, len_app in P. change (len (le 4 0x02014b50)) with 4 in P.
      rewrite <- take_firstn, len_take. change (s_pos (calm s)) with (s_pos s). lia. }
    rewrite N0 in NX. destruct (stream_next cfg s) as [r s1]. destruct NX as [F|(_ & _ & NX)].
    + destruct F as (c & I & ->). split; [constructor|]. split; [constructor|]. left. now exists c.
    + destruct r as [[rd|]|e|p]; [destruct NX as (? & X & _); discriminate X| |discriminate NX|discriminate NX]. repeat split; constructor.
  - subst d. pose proof (next_any cfg s) as NX. rewrite <- P in R. destruct (next_takes cfg (calm s) tp m z (Forall_nil _) R T Rd) as (rd0 & s0 & N0 & RE & M).
    rewrite N0 in NX. destruct (stream_next cfg s) as [r s1] eqn:NE. destruct NX as [F|(LA & S0 & NX)].
    { destruct F as (c & I & ->). split; [constructor|]. split; [constructor|]. left. now exists c. }
    destruct r as [[rd|]|e|p]; [|discriminate NX..]. destruct NX as (rd1 & X & E1 & E2 & _). injection X as <-.
    pose proof (next_reads _ _ _ _ NE) as (D1 & _ & _ & _ & _ & RD & RR). rewrite RR. cbn [er_new er_src er_comp er_limit].
    assert (Z : rd_entry rd = z) by congruence. subst s0. change (past (s_pos s1) (s_data s1) = m) in M. rewrite D1 in M. rewrite RD, Z.
    pose proof (stay_midway s1 z (sy_polls y) ltac:(now rewrite D1)) as SM. cbv zeta in SM. rewrite D1, M in SM.
    destruct (dr_polls (sy_polls y) _) as [ps r']. destruct SM as (LB & NB & SM). rewrite DE in *. cbn [fst snd] in *.
    assert (NF : ~ Exists found_bad ps) by (intro X; specialize (NB X); discriminate NB). destruct (SM NF) as (MW & PR & AE).
    assert (LO : left_ok (s_pos s1) (en_compression z) (data_of z m) (en_data_descriptor z) (sy_done y) r' (told ps) ((if sy_done y then dr_done else dr_skip) (sy_patience y) (en_data_descriptor z) r'))
      by (destruct (sy_done y); [now apply done_left|now apply skip_left]).
    assert (ONE : forall lf, lf <> Some true -> visited_as (z, out) {| sd_entry := z; sd_polls := ps; sd_left := lf |}).
    { intros lf X. split; [reflexivity|]. split; [exact PR|]. cbn [sd_polls sd_left snd]. intros [A|A]; [|contradiction]. specialize (AE A). congruence. }
    pose proof (later_trans _ _ _ LA LB) as LC.
    destruct ((if sy_done y then dr_done else dr_skip) (sy_patience y) (en_data_descriptor z) r') as [q|]; cbn [left_ok] in LO; rewrite ?DE in LO; cbn [fst snd] in LO.
    2:{ split; [constructor; [now apply ONE|constructor]|]. split; [now repeat constructor|exact I]. }
    destruct LO as [F|[(X & _)|[(_ & NE2 & ->)|(j & s' & J & LE & PS & _ & DN & ->)]]]; [|discriminate X| |].
    + destruct F as (c & I & ->). split; [constructor; [now apply ONE|constructor]|]. split; [now repeat constructor|]. left. apply (faulty_later _ _ _ LC). now exists c.
    + split; [constructor; [now apply ONE|constructor]|]. split; [now repeat constructor|]. right. split; [reflexivity|]. exists [], {| sd_entry := z; sd_polls := ps; sd_left := None |}, (z, out). now repeat split.
    + rewrite E in J. injection J as <-. pose proof (later_trans _ _ _ LC LE) as LF. destruct LF as (D5 & LF2).
      assert (B' : behind (en_data_descriptor z) (past (s_pos s1 + k) (s_data s)) tail) by (rewrite past_drop, <- drop_drop, <- past_drop, <- past_drop, M; exact B).
      assert (ST : stands (calm s') (s_data s) (s_pos s1 + k)) by (repeat split; [exact D5|exact PS|constructor]).
      destruct (after_behind _ _ _ _ _ ST B') as (s2c & AC & S2 & P2). destruct (after_any (en_data_descriptor z) s') as [F|(A1 & A2 & A3)].
      { destruct F as (c & I & ->). split; [constructor; [now apply ONE|constructor]|]. split; [now repeat constructor|]. left. apply (faulty_later s s'); [now split|]. now exists c. }
      destruct (after_entry (en_data_descriptor z) s') as [s2|e|e]; [|specialize (A1 e eq_refl); congruence|specialize (A2 e eq_refl); congruence].
      destruct (A3 s2 eq_refl) as (LG & AC'). rewrite AC in AC'. injection AC' as ->. cbn [calm s_pos] in P2.
      assert (LH : later s s2) by (exact (later_trans _ _ _ (conj D5 LF2) LG)).
      specialize (IH l s2 (proj1 LH) P2). destruct (d_walk D cfg l s2) as [ys o]. destruct IH as (I1 & I2 & I3). split; [|split].
      * cbn [length firstn]. constructor; [|exact I1]. split; [reflexivity|]. split; [exact PR|]. cbn [sd_polls sd_left snd]. intros [A|A]; [specialize (AE A); congruence|].
        injection A as A. apply DN in A. exact A.
      * constructor; [exact NF|exact I2].
      * destruct o as [[u|e|p]|]; [cbn [length]; now f_equal| | |exact I].
        -- destruct I3 as [F|(-> & ys0 & y0 & x0 & -> & X1 & X2)]; [left; exact (faulty_later _ _ _ LH F)|right]. split; [reflexivity|]. now exists ({| sd_entry := z; sd_polls := ps; sd_left := Some (sy_done y) |} :: ys0), y0, x0.
        -- destruct I3 as [F|(X & _)]; [left; exact (faulty_later _ _ _ LH F)|discriminate X].
Qed.
Lemma walk_reads cfg d : len d < 0x10000000000000000 -> forall l s ys u, s_data s = d -> d_walk D cfg l s = (ys, Some (Ok u)) -> Forall no_complaint ys ->
  exists xs, goes cd (past (s_pos s) d) xs /\ Forall2 visited_as xs ys.
Proof.
  intro LD. induction l as [|y l IH]; intros s ys u DS H NF; cbn [d_walk] in H; [discriminate H|]. subst d.
  destruct (stream_next cfg s) as [[[rd|]|?|?] s1] eqn:NX; try discriminate H.
  - pose proof (next_reads _ _ _ _ NX) as (D1 & t & R & T & Rd & RD & RR). rewrite RR in H. cbn [er_new er_src er_comp er_limit] in H.
    pose proof (stay_midway s1 (rd_entry rd) (sy_polls y) ltac:(now rewrite D1)) as SM. cbv zeta in SM. rewrite D1 in SM.
    destruct (dr_polls (sy_polls y) _) as [ps r']. destruct SM as (LB & NB & SM).
    set (z := rd_entry rd) in *. set (W := data_of z (past (s_pos s1) (s_data s))) in *.
    assert (HF : ~ Exists found_bad ps).
    { destruct ((if sy_done y then dr_done else dr_skip) (sy_patience y) (rd_descriptor rd) r') as [[s'|?|?]|]; try discriminate H.
      destruct (d_walk D cfg l s') as [xs o]. injection H as <- _. inversion NF; assumption. }
    destruct (SM HF) as (MW & PR & AE).
    assert (LO : left_ok (s_pos s1) (en_compression z) W (rd_descriptor rd) (sy_done y) r' (told ps) ((if sy_done y then dr_done else dr_skip) (sy_patience y) (rd_descriptor rd) r'))
      by (destruct (sy_done y); [now apply done_left|now apply skip_left]).
    destruct ((if sy_done y then dr_done else dr_skip) (sy_patience y) (rd_descriptor rd) r') as [[s'|?|?]|]; try discriminate H.
    destruct (d_walk D cfg l s') as [xs o] eqn:WK. injection H as <- ->. inversion NF as [|? ? _ NF2]; subst.
    cbn [left_ok] in LO. destruct LO as [(? & _ & X)|[(_ & ? & _ & X)|[(_ & _ & X)|(k & s2 & K & LE & PS & DT & DN & AE2)]]]; [discriminate X..|].
    destruct (decoded cd (en_compression z) W) as [out ok] eqn:DE. cbn [fst snd] in *. subst ok.
    destruct (after_any (rd_descriptor rd) s2) as [(? & _ & F)|(_ & _ & A3)]; [rewrite <- AE2 in F; discriminate F|]. destruct (A3 _ (eq_sym AE2)) as [LG AC].
    pose proof (later_trans _ _ _ LB LE) as (D5 & _). rewrite D1 in D5.
    assert (ST : stands (calm s2) (s_data s) (s_pos s1 + k)) by (repeat split; [exact D5|exact PS|constructor]).
    destruct (behind_after _ _ _ _ _ ST AC) as [B S2]. cbn [calm s_pos] in B. destruct LG as (D6 & _). rewrite D5 in D6.
    destruct (IH _ _ _ D6 WK NF2) as (xs2 & G & Q). exists ((z, out) :: xs2). split.
    + rewrite RD in B. eapply goes_entry; try eassumption. rewrite !past_drop in *. now rewrite drop_drop.
    + constructor; [|exact Q]. split; [reflexivity|]. split; [exact PR|]. cbn [sd_polls sd_left snd]. intros [A|A]; [specialize (AE A); congruence|]. injection A as A. now apply DN.
  - injection H as <- _. exists []. split; [|constructor]. apply next_reads in NX as (_ & (a & b & E & L) & _). rewrite past_drop, E.
    replace (drop _ _) with (le 4 0x02014b50 ++ b) by (symmetry; now apply drop_app_exact). constructor.
Qed.
End Walk.
