(** Readers that are polled get done. *)
From Verif Require Import Base BaseFacts SpecFormat SpecCrc SpecArchive SpecRead SpecStream SpecStrict SpecExact SpecThrough ZString Headers HeadersFacts ExtraField
  Entry IO IOFacts Reader ReaderFacts LfhFacts EntryReader EntryReaderFacts EntryProofs ReadProofs StreamReader StreamProofs RoundTrip StreamWalk FrontProofs
  StrictProofs ExactProofs ExactTop ThroughProofs FaultWalkProofs ReaderPolls SpecReadPolls ReadPollProofs DecoderPolls SpecDecoder DecoderProofs DecoderWalk SpecWalk DecoderWalkProofs SpecAwake.
Import SpecReadPolls.
Arguments N.mul : simpl never.
Arguments N.add : simpl never.
Arguments N.sub : simpl never.
Arguments N.min : simpl never.

Lemma delays_app a b : delays (a ++ b) = (delays a + delays b)%nat.
Proof. unfold delays. now rewrite filter_app, app_length. Qed.
Lemma delays_in u : In RPending u -> (0 < delays u)%nat.
Proof. intro I. apply in_split in I as (a & b & ->). rewrite delays_app. unfold delays. cbn. lia. Qed.
Lemma no_fault s e s' : nofail (s_sched s) -> ~ faulted e s s'.
Proof. intros N (k & u & _ & U & I). rewrite U in N. apply nofail_app in N as [N _]. unfold nofail in N. rewrite Forall_forall in N. specialize (N _ I). discriminate N. Qed.
Lemma not_faulty {A} s (r : res A) : nofail (s_sched s) -> ~ faulty s r.
Proof. intros N (c & I & _). unfold nofail in N. rewrite Forall_forall in N. specialize (N _ I). discriminate N. Qed.
Lemma later_length s s' : later s s' -> (delays (s_sched s') <= delays (s_sched s))%nat.
Proof. intros (_ & u & U). rewrite U, delays_app. lia. Qed.
Lemma later_nofail s s' : later s s' -> nofail (s_sched s) -> nofail (s_sched s').
Proof. intros (_ & u & U) N. rewrite U in N. now apply nofail_app in N. Qed.
Lemma prefix_length {A} (a b : list A) : prefix a b -> (length a <= length b)%nat.
Proof. intros (c & ->). rewrite app_length. lia. Qed.

Lemma both_cons {A B} (R : A -> B -> Prop) a l b m : Forall2 R (a :: l) (b :: m) -> R a b /\ Forall2 R l m.
Proof. intro H. inversion H; subst. now split. Qed.

Section Awake.
Context (cd : codec) (D : decoder) (view : dg_state D -> compression * bytes * bytes) (inv : dg_state D -> bytes -> Prop) (OK : decoder_ok cd D view inv) (LV : decoder_lively D).
Notation midway := (midway cd D view inv).

Lemma pend_less n (r r' : dreader D) : dr_poll_read n r = (RPend, r') -> (delays (s_sched (dr_src r')) < delays (s_sched (dr_src r)))%nat.
Proof.
  unfold dr_poll_read, dr_inner_poll. destruct (dr_state r) as [g|].
  - destruct (dg_poll D n g (dr_src r) (dr_limit r)) as [[[p g'] s'] l'] eqn:E. destruct p; try discriminate. intro H. injection H as <-. cbn [dr_src].
    destruct (LV _ _ _ _ _ _ _ E) as (u & U & I). apply delays_in in I. rewrite U, delays_app. lia.
  - destruct (dr_limit r =? 0); [discriminate|]. unfold poll_read. destruct (dr_src r) as [d pos [|[|k|k] q]]; cbn [s_sched]; try discriminate.
    intro H. injection H as <-. cbn [dr_src s_sched]. unfold delays. cbn. lia.
Qed.
Lemma read_answers n : forall k (r : dreader D), (delays (s_sched (dr_src r)) < k)%nat -> fst (dr_read k n r) <> RPend.
Proof.
  induction k as [|k IH]; intros r L; [lia|]. cbn [dr_read]. destruct (dr_poll_read n r) as [[|b|e] r1] eqn:P; try discriminate.
  apply IH. apply pend_less in P. lia.
Qed.
Lemma to_end_answers p0 c W ns : Forall (fun n => 0 < n) ns -> forall r out, midway p0 c W r out ->
  (delays (s_sched (dr_src r)) + length (fst (decoded cd c W)) < length out + length ns)%nat -> fst (dr_to_end ns r) <> None.
Proof.
  induction 1 as [|n ns N0 F IH]; intros r out M L; cbn [dr_to_end].
  - apply midway_prefix in M. apply prefix_length in M. cbn [length] in L. lia.
  - cbn [length] in L. pose proof (poll_midway cd D view inv OK p0 c W r out n M) as P. destruct (dr_poll_read n r) as [p r1] eqn:E. destruct P as (_ & (u & U) & P).
    assert (LE : (delays (s_sched (dr_src r1)) <= delays (s_sched (dr_src r)))%nat) by (rewrite U, delays_app; lia).
    destruct p as [|b|e]; [| |discriminate].
    + apply pend_less in E. apply (IH r1 out P). lia.
    + destruct b as [|x b]; [discriminate|]. destruct P as (_ & P & _). specialize (IH r1 _ P). rewrite app_length in IH. cbn [length] in IH. specialize (IH ltac:(lia)).
      destruct (dr_to_end ns r1) as [[[y|y|y]|] r2]; try discriminate. now elim IH.
Qed.
Lemma polls_answer p0 c W whole l : decoded cd c W = (whole, true) -> Forall has_room l -> forall r out, midway p0 c W r out -> nofail (s_sched (dr_src r)) ->
  (delays (s_sched (dr_src r)) + length whole < length out + length l)%nat -> Exists at_end (fst (dr_polls l r)).
Proof.
  intros DE. induction 1 as [|x l H F IH]; intros r out M NF L; cbn [dr_polls].
  - apply midway_prefix in M. apply prefix_length in M. rewrite DE in M. cbn [fst length] in *. lia.
  - cbn [length] in L. destruct (poll_room D x r) as (n & -> & RM). specialize (RM H). pose proof (poll_midway cd D view inv OK p0 c W r out n M) as P.
    destruct (dr_poll_read n r) as [p r1] eqn:E. destruct P as (_ & (u & U) & P).
    assert (LE : (delays (s_sched (dr_src r1)) <= delays (s_sched (dr_src r)))%nat) by (rewrite U, delays_app; lia).
    assert (NF1 : nofail (s_sched (dr_src r1))) by (rewrite U in NF; now apply nofail_app in NF).
    destruct p as [|b|e].
    + apply pend_less in E. specialize (IH r1 out P NF1 ltac:(lia)). destruct (dr_polls l r1) as [ps r2]. now right.
    + destruct P as (_ & P & _). specialize (IH r1 _ P NF1). destruct (dr_polls l r1) as [ps r2]. destruct b as [|y b]; [left; now split|]. right. apply IH.
      rewrite app_length. cbn [length]. lia.
    + destruct P as [(FA & _)|(_ & P)]; [now elim (no_fault _ _ _ NF FA)|]. rewrite DE in P. discriminate P.
Qed.

(** ** Entries by their index *)
Lemma entry_answers ns f i s r e s' : Forall (fun n => 0 < n) ns -> seek_reader_at f i s = (Ok (r, e), s') ->
  (delays (s_sched s') + length (fst (decoded cd (en_compression (st_entry e)) (region (s_data s) e))) < length ns)%nat -> d_read_entry D ns f i s <> None.
Proof.
  intros F O L. unfold d_read_entry. rewrite O. destruct (opened_at f i s r e s' O) as (_ & -> & DS & PS). cbn [er_src er_comp er_limit er_new].
  assert (A : region (s_data s) e = ahead s' (en_compressed_size (st_entry e))) by (rewrite region_take, ahead_take; congruence). rewrite A in L.
  pose proof (to_end_answers _ _ _ ns F _ _ (midway_new cd D view inv OK s' (en_compression (st_entry e)) (en_compressed_size (st_entry e))) L) as X.
  unfold dr_to_end_checked. destruct (dr_to_end ns _) as [[[y|y|y]|] r2]; try discriminate. now elim X.
Qed.
Lemma opened_reads f i s data : nofail (s_sched s) -> read_entry cd f i (cursor (s_data s)) = Ok data ->
  exists r e s', seek_reader_at f i s = (Ok (r, e), s') /\ (delays (s_sched s') <= delays (s_sched s))%nat /\
    fst (decoded cd (en_compression (st_entry e)) (region (s_data s) e)) = data.
Proof.
  intros NF R. unfold read_entry in R. destruct (seek_reader_at f i (cursor (s_data s))) as [[[r0 e]|x|p] s0] eqn:SK; try discriminate R.
  destruct (opened_at _ _ _ _ _ _ SK) as (EA & -> & DS & PS). change (s_data (cursor (s_data s))) with (s_data s) in *.
  assert (N0 : nofail (s_sched s0)).
  { clear R. unfold seek_reader_at in SK. rewrite EA in SK. unfold bind in SK. assert (I : insens (seek_to_data_offset e)) by auto with insens.
    specialize (I (cursor (s_data s))). unfold agrees in I. destruct (seek_to_data_offset e (cursor (s_data s))) as [[[]|x|p] s1]; try discriminate SK.
    cbn [get ret] in SK. injection SK as _ <-. destruct (seek_to_data_offset e (calm (cursor (s_data s)))) as [r2 s2]. destruct I as (_ & _ & _ & u & Hu & _).
    cbn [cursor s_sched] in Hu. symmetry in Hu. apply app_eq_nil in Hu as [_ ->]. constructor. }
  rewrite checked_new in R by exact N0. rewrite DS, PS, <- region_take in R.
  assert (X : exists s', seek_reader_at f i s = (Ok (er_new s' (en_compression (st_entry e)) (en_compressed_size (st_entry e)), e), s') /\ (delays (s_sched s') <= delays (s_sched s))%nat).
  { unfold seek_reader_at in *. rewrite EA in *. unfold bind in *. assert (I : insens (seek_to_data_offset e)) by auto with insens.
    specialize (I s). unfold agrees in I. change (seek_to_data_offset e (cursor (s_data s))) with (seek_to_data_offset e (calm s)) in SK. destruct (seek_to_data_offset e s) as [r1 s1], (seek_to_data_offset e (calm s)) as [r2 s2].
    destruct I as (_ & _ & _ & u & Hu & [(_ & -> & _)|(pre & c & EP & _ & _)]).
    - destruct r2 as [[]|x|p]; try discriminate SK. exists s1. cbn [get ret]. split; [reflexivity|]. rewrite Hu, delays_app. lia.
    - rewrite Hu, EP in NF. apply nofail_app in NF as [NF _]. apply nofail_app in NF as [_ NF]. inversion NF as [|? ? X _]. discriminate X. }
  destruct X as (s' & X1 & X2). eexists _, e, s'. split; [exact X1|]. split; [exact X2|]. destruct (decoded cd _ (region (s_data s) e)) as [b [|]]; [|discriminate R].
  destruct (crc32_spec b =? en_crc32 (st_entry e)); [|discriminate R]. now injection R as ->.
Qed.
Lemma entry_reads ns f i s data : Forall (fun n => 0 < n) ns -> nofail (s_sched s) -> read_entry cd f i (cursor (s_data s)) = Ok data ->
  (delays (s_sched s) + length data < length ns)%nat -> d_read_entry D ns f i s = Some (Ok data).
Proof.
  intros F NF R L. pose proof (decoder_reads cd D view inv OK ns f i s F) as C. rewrite R in C. cbv zeta in C.
  assert (A : d_read_entry D ns f i s <> None).
  { destruct (opened_reads f i s data NF R) as (r & e & s' & O & LE & DE). apply (entry_answers ns f i s r e s' F O). rewrite DE. lia. }
  destruct (d_read_entry D ns f i s) as [x|]; [|now elim A]. destruct C as [->|[(_ & X)|(k & K & _)]]; [reflexivity|discriminate X|].
  unfold nofail in NF. rewrite Forall_forall in NF. specialize (NF _ K). discriminate NF.
Qed.

(** ** Walks *)
Lemma walk_ends cfg d : len d < 0x10000000000000000 -> forall t xs, goes cd t xs -> forall m l s, s_data s = d -> past (s_pos s) d = t -> nofail (s_sched s) ->
  (delays (s_sched s) <= m)%nat -> (length xs < length l)%nat -> Forall2 (fun x y => thorough m (snd x) y) xs (firstn (length xs) l) ->
  let '(ys, o) := d_walk D cfg l s in
  o = Some (Ok tt) /\ Forall2 (fun y z => sd_left z = Some (sy_done y)) (firstn (length xs) l) ys.
Proof.
  intros LD t xs G. induction G as [t|t tp m0 z out k tail xs R T Rd DE E B G IH]; intros m l s DS P NF LM LL TH; (destruct l as [|y l]; [cbn [length] in LL; lia|]); cbn [d_walk].
  - pose proof (next_any cfg s) as NX. destruct (next_ends cfg (calm s)) as (s' & N0); [constructor|..].
    { exists (firstn (N.to_nat (s_pos s)) (s_data s)), t. cbn [calm s_data s_pos]. subst d. rewrite <- P. unfold past. rewrite firstn_skipn. split; [reflexivity|].
      apply (f_equal len) in P. rewrite len_past, len_app in P. change (len (le 4 0x02014b50)) with 4 in P.
      rewrite <- take_firstn, len_take. change (s_pos (calm s)) with (s_pos s). lia. }
    rewrite N0 in NX. destruct (stream_next cfg s) as [r s1]. destruct NX as [F|(_ & _ & NX)]; [now elim (not_faulty _ _ NF F)|].
    destruct r as [[rd|]|e|p]; [destruct NX as (? & X & _); discriminate X| |discriminate NX|discriminate NX]. cbn [length firstn]. split; [reflexivity|constructor].
  - subst d. pose proof (next_any cfg s) as NX. rewrite <- P in R. destruct (next_takes cfg (calm s) tp m0 z (Forall_nil _) R T Rd) as (rd0 & s0 & N0 & RE & M).
    rewrite N0 in NX. destruct (stream_next cfg s) as [r s1] eqn:NE. destruct NX as [F|(LA & S0 & NX)]; [now elim (not_faulty _ _ NF F)|].
    destruct r as [[rd|]|e|p]; [|discriminate NX..]. destruct NX as (rd1 & X & E1 & E2 & _). injection X as <-.
    pose proof (next_reads _ _ _ _ NE) as (D1 & _ & _ & _ & _ & RD & RR). rewrite RR. cbn [er_new er_src er_comp er_limit].
    assert (Z : rd_entry rd = z) by congruence. subst s0. change (past (s_pos s1) (s_data s1) = m0) in M. rewrite D1 in M. rewrite RD, Z.
    cbn [length firstn] in LL, TH. apply both_cons in TH as [TY TH]. cbn [snd] in TY.
    pose proof (stay_midway cd D view inv OK s1 z (sy_polls y) ltac:(now rewrite D1)) as SM. cbv zeta in SM. rewrite D1, M in SM.
    assert (PA : forall m, thorough m out y -> (delays (s_sched s1) <= m)%nat -> sy_done y = true ->
      Exists at_end (fst (dr_polls (sy_polls y) (dr_new D s1 (en_compression z) (if en_data_descriptor z then 0xFFFFFFFFFFFFFFFF else en_compressed_size z))))).
    { intros mm TY' LM' SDN. unfold thorough in TY'. rewrite SDN in TY'. destruct TY' as (HR & HL & _).
      pose proof (midway_new cd D view inv OK s1 (en_compression z) (if en_data_descriptor z then 0xFFFFFFFFFFFFFFFF else en_compressed_size z)) as MN.
      rewrite ahead_take, (whole_data s1 z _ ltac:(now rewrite D1) eq_refl), D1, M in MN.
      refine (polls_answer _ _ _ out _ DE HR _ _ MN _ _); [exact (later_nofail _ _ LA NF)|cbn [dr_new dr_src length]; lia]. }
    specialize (PA m TY ltac:(pose proof (later_length _ _ LA); lia)).
    destruct (dr_polls (sy_polls y) _) as [ps r']. destruct SM as (LB & NB & SM). rewrite DE in *. cbn [fst snd] in *.
    assert (NF0 : ~ Exists found_bad ps) by (intro X; specialize (NB X); discriminate NB). destruct (SM NF0) as (MW & PR & AE).
    assert (LO : left_ok cd D (s_pos s1) (en_compression z) (data_of z m0) (en_data_descriptor z) (sy_done y) r' (told ps) ((if sy_done y then dr_done else dr_skip) (sy_patience y) (en_data_descriptor z) r'))
      by (destruct (sy_done y); [eapply done_left; eassumption|eapply skip_left; eassumption]).
    pose proof (later_trans _ _ _ LA LB) as LC. pose proof (later_length _ _ LC) as LCL.
    assert (AN : (if sy_done y then dr_done else dr_skip) (sy_patience y) (en_data_descriptor z) r' <> None).
    { unfold thorough in TY. destruct (sy_done y).
      - unfold dr_done. pose proof (read_answers 1 (sy_patience y) r' ltac:(lia)) as X. destruct (dr_read (sy_patience y) 1 r') as [[|b|e] r2]; try discriminate. now elim X.
      - unfold dr_skip. assert (F : Forall (fun n => 0 < n) (repeat 2048 (sy_patience y))) by (clear; induction (sy_patience y); constructor; [reflexivity|assumption]).
        pose proof (to_end_answers _ _ _ _ F r' _ MW) as X. rewrite DE, repeat_length in X. cbn [fst] in X. specialize (X ltac:(lia)).
        destruct (dr_to_end (repeat 2048 (sy_patience y)) r') as [[[q|q|q]|] r2]; try discriminate. now elim X. }
    destruct ((if sy_done y then dr_done else dr_skip) (sy_patience y) (en_data_descriptor z) r') as [q|]; [|now elim AN]. cbn [left_ok] in LO; rewrite ?DE in LO; cbn [fst snd] in LO.
    pose proof (later_nofail _ _ LC NF) as NF1.
    destruct LO as [F|[(X & _)|[(SDN & NE2 & _)|(j & s' & J & LE & PS & _ & DN & ->)]]]; [now elim (not_faulty _ _ NF1 F)|discriminate X| |].
    + exfalso. apply NE2. specialize (AE (PA SDN)). congruence.
    + rewrite E in J. injection J as <-. pose proof (later_trans _ _ _ LC LE) as LF. destruct LF as (D5 & LF2).
      assert (B' : behind (en_data_descriptor z) (past (s_pos s1 + k) (s_data s)) tail) by (rewrite past_drop, <- drop_drop, <- past_drop, <- past_drop, M; exact B).
      assert (ST : stands (calm s') (s_data s) (s_pos s1 + k)) by (repeat split; [exact D5|exact PS|constructor]).
      destruct (after_behind _ _ _ _ _ ST B') as (s2c & AC & S2 & P2). pose proof (later_nofail _ _ (conj D5 LF2) NF) as NF2.
      destruct (after_any (en_data_descriptor z) s') as [F|(A1 & A2 & A3)]; [now elim (not_faulty _ _ NF2 F)|].
      destruct (after_entry (en_data_descriptor z) s') as [s2|e|e]; [|specialize (A1 e eq_refl); congruence|specialize (A2 e eq_refl); congruence].
      destruct (A3 s2 eq_refl) as (LG & AC'). rewrite AC in AC'. injection AC' as ->. cbn [calm s_pos] in P2.
      assert (LH : later s s2) by (exact (later_trans _ _ _ (conj D5 LF2) LG)). pose proof (later_length _ _ LH) as LHL.
      specialize (IH m l s2 (proj1 LH) P2 (later_nofail _ _ LH NF) ltac:(lia) ltac:(lia) TH). destruct (d_walk D cfg l s2) as [ys o]. destruct IH as (-> & I1).
      split; [reflexivity|]. cbn [length firstn]. constructor; [reflexivity|exact I1].
Qed.
Lemma walk_done cfg l s xs : len (s_data s) < 0x10000000000000000 -> goes cd (past (s_pos s) (s_data s)) xs -> nofail (s_sched s) ->
  (length xs < length l)%nat -> Forall2 (fun x y => thorough (delays (s_sched s)) (snd x) y) xs (firstn (length xs) l) ->
  exists ys, d_walk D cfg l s = (ys, Some (Ok tt)) /\ Forall2 visited_as xs ys /\ Forall2 (fun y z => sd_left z = Some (sy_done y)) (firstn (length xs) l) ys.
Proof.
  intros L G NF LL TH. pose proof (walk_takes cd D view inv OK cfg (s_data s) L _ xs G l s eq_refl eq_refl) as W.
  pose proof (walk_ends cfg (s_data s) L _ xs G _ l s eq_refl eq_refl NF (le_n _) LL TH) as EN. destruct (d_walk D cfg l s) as [ys o]. destruct EN as (-> & EN).
  destruct W as (W1 & _ & W3). exists ys. split; [reflexivity|]. rewrite W3, firstn_all in W1. now split.
Qed.
End Awake.
