(** Reading over sources that fail in between. *)
From Verif Require Import Base BaseFacts Crc32 SpecFormat SpecCrc SpecArchive SpecRead SpecStream SpecStrict SpecExact SpecThrough ZString Headers HeadersFacts ExtraField
  Entry IO IOFacts Reader ReaderFacts LfhFacts EntryReader EntryReaderFacts EntryProofs ReadProofs StreamReader StreamProofs RoundTrip StreamWalk FrontProofs
  StrictProofs ExactProofs ExactTop ThroughProofs FaultWalkProofs ReaderPolls SpecReadPolls ReadPollProofs DecoderPolls SpecDecoder DecoderProofs DecoderWalk SpecWalk DecoderWalkProofs SpecAwake SpecEndure AwakeProofs.
Import SpecReadPolls.
Arguments N.mul : simpl never.
Arguments N.add : simpl never.
Arguments N.sub : simpl never.
Arguments N.min : simpl never.


Lemma troubles_app a b : troubles (a ++ b) = (troubles a + troubles b)%nat.
Proof. unfold troubles. now rewrite filter_app, app_length. Qed.
Lemma troubles_in e u : In e u -> match e with RChunk _ => false | _ => true end = true -> (0 < troubles u)%nat.
Proof. intros I E. apply in_split in I as (a & b & ->). rewrite troubles_app. unfold troubles. cbn [filter]. rewrite E. cbn [length]. lia. Qed.
Lemma delays_troubles l : (delays l <= troubles l)%nat.
Proof. unfold delays, troubles. induction l as [|[|k|k] l IH]; cbn [filter length]; lia. Qed.
Lemma later_troubles s s' : later s s' -> (troubles (s_sched s') <= troubles (s_sched s))%nat.
Proof. intros (_ & u & U). rewrite U, troubles_app. lia. Qed.
Lemma later_delays s s' : later s s' -> (delays (s_sched s') <= delays (s_sched s))%nat.
Proof. intros (_ & u & U). rewrite U, delays_app. lia. Qed.

Section Trouble.
Context (cd : codec) (D : decoder) (view : dg_state D -> compression * bytes * bytes) (inv : dg_state D -> bytes -> Prop) (OK : decoder_ok cd D view inv) (LV : decoder_lively D).
Notation midway := (midway cd D view inv).

Lemma pend_used n (r r' : dreader D) : dr_poll_read n r = (RPend, r') -> exists u, s_sched (dr_src r) = u ++ s_sched (dr_src r') /\ In RPending u.
Proof.
  unfold dr_poll_read, dr_inner_poll. destruct (dr_state r) as [g|].
  - destruct (dg_poll D n g (dr_src r) (dr_limit r)) as [[[p g'] s'] l'] eqn:E. destruct p; try discriminate. intro H. injection H as <-. cbn [dr_src].
    exact (LV _ _ _ _ _ _ _ E).
  - destruct (dr_limit r =? 0); [discriminate|]. unfold poll_read. destruct (dr_src r) as [d pos [|[|k|k] q]]; cbn [s_sched]; try discriminate.
    intro H. injection H as <-. cbn [dr_src s_sched]. exists [RPending]. split; [reflexivity|now left].
Qed.
(** polled on after an error, a reader goes on where it was *)
Lemma polls_on p0 c W whole l : decoded cd c W = (whole, true) -> Forall has_room l -> forall r out, midway p0 c W r out ->
  (troubles (s_sched (dr_src r)) + length whole < length out + length l)%nat -> Exists at_end (fst (dr_polls l r)).
Proof.
  intros DE. induction 1 as [|x l H F IH]; intros r out M L; cbn [dr_polls].
  - apply midway_prefix in M. apply prefix_length in M. rewrite DE in M. cbn [fst length] in *. lia.
  - cbn [length] in L. destruct (poll_room D x r) as (n & -> & RM). specialize (RM H). pose proof (poll_midway cd D view inv OK p0 c W r out n M) as P.
    destruct (dr_poll_read n r) as [p r1] eqn:E. destruct P as (_ & (u & U) & P).
    assert (LE : (troubles (s_sched (dr_src r1)) <= troubles (s_sched (dr_src r)))%nat) by (rewrite U, troubles_app; lia).
    destruct p as [|b|e].
    + apply pend_used in E as (v & V & I). apply troubles_in in I; [|reflexivity]. rewrite V, troubles_app in L. specialize (IH r1 out P ltac:(lia)).
      destruct (dr_polls l r1) as [ps r2]. now right.
    + destruct P as (_ & P & _). specialize (IH r1 _ P). destruct (dr_polls l r1) as [ps r2]. destruct b as [|y b]; [left; now split|]. right. apply IH.
      rewrite app_length. cbn [length]. lia.
    + destruct P as [((k & v & _ & V & I) & P)|(_ & P)]; [|rewrite DE in P; discriminate P]. apply troubles_in in I; [|reflexivity]. rewrite V, troubles_app in L.
      specialize (IH r1 out P ltac:(lia)). destruct (dr_polls l r1) as [ps r2]. now right.
Qed.

(** ** Entries by their index *)
Lemma opened_or f i s data : read_entry cd f i (cursor (s_data s)) = Ok data ->
  (exists r e s', seek_reader_at f i s = (Ok (r, e), s') /\ later s s' /\ decoded cd (en_compression (st_entry e)) (region (s_data s) e) = (data, true)) \/
  exists x s', seek_reader_at f i s = (x, s') /\ faulty s x.
Proof.
  intros R. unfold read_entry in R. destruct (seek_reader_at f i (cursor (s_data s))) as [[[r0 e]|x|p] s0] eqn:SK; try discriminate R.
  destruct (opened_at _ _ _ _ _ _ SK) as (EA & -> & DS & PS). change (s_data (cursor (s_data s))) with (s_data s) in *.
  assert (N0 : nofail (s_sched s0)).
  { clear R. unfold seek_reader_at in SK. rewrite EA in SK. unfold bind in SK. assert (I : insens (seek_to_data_offset e)) by auto with insens.
    specialize (I (cursor (s_data s))). unfold agrees in I. destruct (seek_to_data_offset e (cursor (s_data s))) as [[[]|x|p] s1]; try discriminate SK.
    cbn [get ret] in SK. injection SK as _ <-. destruct (seek_to_data_offset e (calm (cursor (s_data s)))) as [r2 s2]. destruct I as (_ & _ & _ & u & Hu & _).
    cbn [cursor s_sched] in Hu. symmetry in Hu. apply app_eq_nil in Hu as [_ ->]. constructor. }
  rewrite checked_new in R by exact N0. rewrite DS, PS, <- region_take in R.
  assert (DE : decoded cd (en_compression (st_entry e)) (region (s_data s) e) = (data, true)).
  { destruct (decoded cd _ (region (s_data s) e)) as [b [|]]; [|discriminate R]. destruct (crc32_spec b =? en_crc32 (st_entry e)); [|discriminate R]. now injection R as ->. }
  unfold seek_reader_at in *. rewrite EA in *. unfold bind in *. assert (I : insens (seek_to_data_offset e)) by auto with insens.
  specialize (I s). unfold agrees in I. change (seek_to_data_offset e (cursor (s_data s))) with (seek_to_data_offset e (calm s)) in SK. destruct (seek_to_data_offset e s) as [r1 s1], (seek_to_data_offset e (calm s)) as [r2 s2].
  destruct I as (D1 & D2 & D3 & u & Hu & [(_ & -> & _)|(pre & c & EP & _ & ER)]).
  - left. destruct r2 as [[]|x|p]; try discriminate SK. eexists _, e, s1. cbn [get ret]. split; [reflexivity|]. split; [|exact DE]. split; [exact D3|now exists u].
  - right. rewrite ER. eexists _, s1. split; [reflexivity|]. rewrite EP in Hu. exact (used_faulty _ _ _ _ Hu).
Qed.
Lemma entry_on l f i s r e s' data : read_entry cd f i (cursor (s_data s)) = Ok data -> seek_reader_at f i s = (Ok (r, e), s') -> Forall has_room l ->
  (troubles (s_sched s') + length data < length l)%nat ->
  let '(ps, r') := dr_polls l (dr_new D (er_src r) (er_comp r) (er_limit r)) in
  told ps = data /\ Exists at_end ps /\ hasher_finalize (dr_hash r') = crc32_spec data.
Proof.
  intros R O H L. destruct (opened_or f i s data R) as [(r0 & e0 & s0 & O0 & _ & DE)|(x & s0 & O0 & (c & _ & ->))]; [|rewrite O in O0; discriminate O0].
  rewrite O in O0. injection O0 as <- <- <-. pose proof (decoder_polled cd D view inv OK f i l s r e s' O) as P. destruct (opened_at f i s r e s' O) as (_ & -> & DS & PS). cbn [er_src er_comp er_limit er_new] in *.
  assert (A : region (s_data s) e = ahead s' (en_compressed_size (st_entry e))) by (rewrite region_take, ahead_take; congruence).
  pose proof (polls_on _ (en_compression (st_entry e)) (ahead s' (en_compressed_size (st_entry e))) data l ltac:(rewrite <- A; exact DE) H _ _ (midway_new cd D view inv OK s' (en_compression (st_entry e)) (en_compressed_size (st_entry e)))) as X.
  cbn [dr_new dr_src length] in X. specialize (X L).
  destruct (dr_polls l (dr_new D s' (en_compression (st_entry e)) (en_compressed_size (st_entry e)))) as [ps r']. cbn [fst] in X. cbv zeta in P. rewrite DE in P. cbn [fst snd] in P. destruct P as (_ & B & G).
  destruct G as (_ & G & HG); [intro B'; specialize (B B'); discriminate B|]. specialize (G X). injection G as ->. auto.
Qed.
Lemma entry_settles ns f i s : Forall (fun n => 0 < n) ns ->
  (forall r e s', seek_reader_at f i s = (Ok (r, e), s') -> (delays (s_sched s') + length (fst (decoded cd (en_compression (st_entry e)) (region (s_data s) e))) < length ns)%nat) ->
  exists x, d_read_entry D ns f i s = Some x /\
    let y := read_entry cd f i (cursor (s_data s)) in
    (x = y \/ (x = Err (UpstreamReadError UnexpectedEof) /\ y = Err (UpstreamReadError InvalidData)) \/ exists k, In (RFail k) (s_sched s) /\ x = Err (UpstreamReadError (IoOther k))).
Proof.
  intros F L. pose proof (decoder_reads cd D view inv OK ns f i s F) as C.
  assert (A : d_read_entry D ns f i s <> None).
  { destruct (seek_reader_at f i s) as [[[r e]|x|p] s'] eqn:O; [|unfold d_read_entry; rewrite O; discriminate..].
    exact (entry_answers cd D view inv OK LV ns f i s r e s' F O (L r e s' eq_refl)). }
  destruct (d_read_entry D ns f i s) as [x|]; [|now elim A]. exists x. split; [reflexivity|exact C].
Qed.
Lemma entry_or ns f i s data : Forall (fun n => 0 < n) ns -> read_entry cd f i (cursor (s_data s)) = Ok data ->
  (delays (s_sched s) + length data < length ns)%nat ->
  d_read_entry D ns f i s = Some (Ok data) \/ exists k, In (RFail k) (s_sched s) /\ d_read_entry D ns f i s = Some (Err (UpstreamReadError (IoOther k))).
Proof.
  intros F R L. destruct (entry_settles ns f i s F) as (x & -> & X).
  - intros r e s' O. destruct (opened_or f i s data R) as [(r0 & e0 & s0 & O0 & LA & DE)|(x & s0 & O0 & (c & _ & ->))]; [|rewrite O in O0; discriminate O0].
    rewrite O in O0. injection O0 as <- <- <-. rewrite DE. cbn [fst]. apply later_delays in LA. lia.
  - cbv zeta in X. rewrite R in X. destruct X as [->|[(_ & X)|(k & K & ->)]]; [now left|discriminate X|]. right. now exists k.
Qed.

(** ** Walks *)
Lemma walk_on cfg d : len d < 0x10000000000000000 -> forall t xs, goes cd t xs -> forall m l s, s_data s = d -> past (s_pos s) d = t -> 
  (troubles (s_sched s) <= m)%nat -> (length xs < length l)%nat -> Forall2 (fun x y => thorough m (snd x) y) xs (firstn (length xs) l) ->
  let '(ys, o) := d_walk D cfg l s in
  o = Some (Ok tt) /\ Forall2 (fun y z => sd_left z = Some (sy_done y)) (firstn (length xs) l) ys \/ exists r, o = Some r /\ faulty s r.
Proof.
  intros LD t xs G. induction G as [t|t tp m0 z out k tail xs R T Rd DE E B G IH]; intros m l s DS P LM LL TH; (destruct l as [|y l]; [cbn [length] in LL; lia|]); cbn [d_walk].
  - pose proof (next_any cfg s) as NX. destruct (next_ends cfg (calm s)) as (s' & N0); [constructor|..].
    { exists (firstn (N.to_nat (s_pos s)) (s_data s)), t. cbn [calm s_data s_pos]. subst d. rewrite <- P. unfold past. rewrite firstn_skipn. split; [reflexivity|].
      apply (f_equal len) in P. rewrite len_past, len_app in P. change (len (le 4 0x02014b50)) with 4 in P.
      rewrite <- take_firstn, len_take. change (s_pos (calm s)) with (s_pos s). lia. }
    rewrite N0 in NX. destruct (stream_next cfg s) as [r s1]. destruct NX as [(c & I & ->)|(_ & _ & NX)]; [right; eexists; split; [reflexivity|now exists c]|].
    destruct r as [[rd|]|e|p]; [destruct NX as (? & X & _); discriminate X| |discriminate NX|discriminate NX]. cbn [length firstn]. left. split; [reflexivity|constructor].
  - subst d. pose proof (next_any cfg s) as NX. rewrite <- P in R. destruct (next_takes cfg (calm s) tp m0 z (Forall_nil _) R T Rd) as (rd0 & s0 & N0 & RE & M).
    rewrite N0 in NX. destruct (stream_next cfg s) as [r s1] eqn:NE. destruct NX as [(c & I & ->)|(LA & S0 & NX)]; [right; eexists; split; [reflexivity|now exists c]|].
    destruct r as [[rd|]|e|p]; [|discriminate NX..]. destruct NX as (rd1 & X & E1 & E2 & _). injection X as <-.
    pose proof (next_reads _ _ _ _ NE) as (D1 & _ & _ & _ & _ & RD & RR). rewrite RR. cbn [er_new er_src er_comp er_limit].
    assert (Z : rd_entry rd = z) by congruence. subst s0. change (past (s_pos s1) (s_data s1) = m0) in M. rewrite D1 in M. rewrite RD, Z.
    cbn [length firstn] in LL, TH. apply both_cons in TH as [TY TH]. cbn [snd] in TY.
    pose proof (stay_midway cd D view inv OK s1 z (sy_polls y) ltac:(now rewrite D1)) as SM. cbv zeta in SM. rewrite D1, M in SM.
    assert (PA : forall m, thorough m out y -> (troubles (s_sched s1) <= m)%nat -> sy_done y = true ->
      Exists at_end (fst (dr_polls (sy_polls y) (dr_new D s1 (en_compression z) (if en_data_descriptor z then 0xFFFFFFFFFFFFFFFF else en_compressed_size z))))).
    { intros mm TY' LM' SDN. unfold thorough in TY'. rewrite SDN in TY'. destruct TY' as (HR & HL & _).
      pose proof (midway_new cd D view inv OK s1 (en_compression z) (if en_data_descriptor z then 0xFFFFFFFFFFFFFFFF else en_compressed_size z)) as MN.
      rewrite ahead_take, (whole_data s1 z _ ltac:(now rewrite D1) eq_refl), D1, M in MN.
      refine (polls_on _ _ _ out _ DE HR _ _ MN _). cbn [dr_new dr_src length]. lia. }
    specialize (PA m TY ltac:(pose proof (later_troubles _ _ LA); lia)).
    destruct (dr_polls (sy_polls y) _) as [ps r']. destruct SM as (LB & NB & SM). rewrite DE in *. cbn [fst snd] in *.
    assert (NF0 : ~ Exists found_bad ps) by (intro X; specialize (NB X); discriminate NB). destruct (SM NF0) as (MW & PR & AE).
    assert (LO : left_ok cd D (s_pos s1) (en_compression z) (data_of z m0) (en_data_descriptor z) (sy_done y) r' (told ps) ((if sy_done y then dr_done else dr_skip) (sy_patience y) (en_data_descriptor z) r'))
      by (destruct (sy_done y); [eapply done_left; eassumption|eapply skip_left; eassumption]).
    pose proof (later_trans _ _ _ LA LB) as LC. pose proof (later_troubles _ _ LC) as LCL. pose proof (delays_troubles (s_sched (dr_src r'))) as DT.
    assert (AN : (if sy_done y then dr_done else dr_skip) (sy_patience y) (en_data_descriptor z) r' <> None).
    { unfold thorough in TY. destruct (sy_done y).
      - unfold dr_done. pose proof (read_answers D LV 1 (sy_patience y) r' ltac:(lia)) as X. destruct (dr_read (sy_patience y) 1 r') as [[|b|e] r2]; try discriminate. now elim X.
      - unfold dr_skip. assert (F : Forall (fun n => 0 < n) (repeat 2048 (sy_patience y))) by (clear; induction (sy_patience y); constructor; [reflexivity|assumption]).
        pose proof (to_end_answers cd D view inv OK LV _ _ _ _ F r' _ MW) as X. rewrite DE, repeat_length in X. cbn [fst] in X. specialize (X ltac:(lia)).
        destruct (dr_to_end (repeat 2048 (sy_patience y)) r') as [[[q|q|q]|] r2]; try discriminate. now elim X. }
    destruct ((if sy_done y then dr_done else dr_skip) (sy_patience y) (en_data_descriptor z) r') as [q|]; [|now elim AN]. cbn [left_ok] in LO; rewrite ?DE in LO; cbn [fst snd] in LO.
    destruct LO as [(c & I & ->)|[(X & _)|[(SDN & NE2 & _)|(j & s' & J & LE & PS & _ & DN & ->)]]]; [|discriminate X| |].
    + right. eexists. split; [reflexivity|]. destruct LC as (_ & u & U). exists c. split; [rewrite U; apply in_or_app; now right|reflexivity].
    + exfalso. apply NE2. specialize (AE (PA SDN)). congruence.
    + rewrite E in J. injection J as <-. pose proof (later_trans _ _ _ LC LE) as LF. destruct LF as (D5 & LF2).
      assert (B' : behind (en_data_descriptor z) (past (s_pos s1 + k) (s_data s)) tail) by (rewrite past_drop, <- drop_drop, <- past_drop, <- past_drop, M; exact B).
      assert (ST : stands (calm s') (s_data s) (s_pos s1 + k)) by (repeat split; [exact D5|exact PS|constructor]).
      destruct (after_behind _ _ _ _ _ ST B') as (s2c & AC & S2 & P2).
      destruct (after_any (en_data_descriptor z) s') as [(c & I & ->)|(A1 & A2 & A3)].
      { right. eexists. split; [reflexivity|]. destruct LF2 as (u & U). exists c. split; [rewrite U; apply in_or_app; now right|reflexivity]. }
      destruct (after_entry (en_data_descriptor z) s') as [s2|e|e]; [|specialize (A1 e eq_refl); congruence|specialize (A2 e eq_refl); congruence].
      destruct (A3 s2 eq_refl) as (LG & AC'). rewrite AC in AC'. injection AC' as ->. cbn [calm s_pos] in P2.
      assert (LH : later s s2) by (exact (later_trans _ _ _ (conj D5 LF2) LG)). pose proof (later_troubles _ _ LH) as LHL.
      specialize (IH m l s2 (proj1 LH) P2 ltac:(lia) ltac:(lia) TH). destruct (d_walk D cfg l s2) as [ys o].
      destruct IH as [(-> & I1)|(q & -> & FQ)]; [left|right; exists q; split; [reflexivity|exact (faulty_later _ _ _ LH FQ)]].
      split; [reflexivity|]. cbn [length firstn]. constructor; [reflexivity|exact I1].
Qed.
Lemma walk_or cfg l s xs : len (s_data s) < 0x10000000000000000 -> goes cd (past (s_pos s) (s_data s)) xs ->
  (length xs < length l)%nat -> Forall2 (fun x y => thorough (troubles (s_sched s)) (snd x) y) xs (firstn (length xs) l) ->
  exists ys r, d_walk D cfg l s = (ys, Some r) /\ Forall2 visited_as (firstn (length ys) xs) ys /\ Forall no_complaint ys /\
    (r = Ok tt /\ length ys = length xs /\ Forall2 (fun y z => sd_left z = Some (sy_done y)) (firstn (length xs) l) ys \/
     exists k, In (RFail k) (s_sched s) /\ r = Err (UpstreamReadError (IoOther k))).
Proof.
  intros L G LL TH. pose proof (walk_takes cd D view inv OK cfg (s_data s) L _ xs G l s eq_refl eq_refl) as W.
  pose proof (walk_on cfg (s_data s) L _ xs G _ l s eq_refl eq_refl (le_n _) LL TH) as EN. destruct (d_walk D cfg l s) as [ys o]. destruct W as (W1 & W2 & W3).
  destruct EN as [(-> & EN)|(r & -> & F)]; eexists ys, _; (split; [reflexivity|]); (split; [exact W1|]); (split; [exact W2|]); [left|right; exact F]. auto.
Qed.
End Trouble.
