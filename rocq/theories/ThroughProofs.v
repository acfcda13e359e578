(** Proofs: entries and contents are exactly what stands in the bytes. *)
From Verif Require Import Base BaseFacts SpecFormat SpecCrc SpecUtf8 SpecArchive SpecRead SpecStream SpecStrict SpecExact SpecThrough ZString Headers HeadersFacts ExtraField
  Entry IO IOFacts Reader ReaderFacts OpenFacts TameFacts LfhFacts EntryReader EntryReaderFacts EntryProofs ReadProofs StreamReader StreamProofs RoundTrip StreamWalk FrontProofs
  StrictProofs ExactProofs ExactTop.
Arguments N.mul : simpl never.
Arguments N.add : simpl never.
Arguments N.sub : simpl never.
Arguments N.min : simpl never.

(** ** One entry *)
Lemma after_behind desc s d p tail : stands s d p -> behind desc (past p d) tail ->
  exists s2, after_entry desc s = Ok s2 /\ stands s2 d (s_pos s2) /\ past (s_pos s2) d = tail.
Proof.
  intros S B. rewrite past_drop in B. remember (drop p d) as l eqn:E. symmetry in E. destruct B as [l|w l L|w l L F].
  - exists s. split; [reflexivity|]. destruct S as (S1 & S2 & S3). rewrite past_drop, S2, E. repeat split; auto.
  - destruct (consume_at s d p (p + 16) S (consume_signed d p w l E L)) as (s2 & A & S2). exists s2. split; [exact A|].
    destruct S2 as (D2 & P2 & N2). split; [now repeat split|]. rewrite past_drop, P2, <- drop_drop, E, app_assoc. apply drop_app_exact.
    rewrite len_app, L. reflexivity.
  - destruct (consume_at s d p (p + 12) S (consume_unsigned d p w l E L ltac:(now rewrite take_firstn))) as (s2 & A & S2). exists s2. split; [exact A|].
    destruct S2 as (D2 & P2 & N2). split; [now repeat split|]. rewrite past_drop, P2, <- drop_drop, E. now apply drop_app_exact.
Qed.
Lemma behind_after desc s d p s2 : stands s d p -> after_entry desc s = Ok s2 -> behind desc (past p d) (past (s_pos s2) d) /\ stands s2 d (s_pos s2).
Proof.
  intros (<- & <- & N) A. destruct desc; cbn [after_entry] in A.
  2:{ injection A as <-. split; [constructor|now repeat split]. }
  destruct (agrees_any _ s insens_consume N) as (q & E & _ & Nq). rewrite E in A. clear E. change (calm s) with (src (s_data s) (s_pos s)) in A.
  destruct (consume_data_descriptor (src (s_data s) (s_pos s))) as [[[]|?|?] s1] eqn:C; try discriminate. cbn [fst snd] in A. injection A as <-. cbn [s_pos].
  split; [|now repeat split]. rewrite !past_drop. set (d := s_data s) in *. set (p := s_pos s) in *. unfold consume_data_descriptor in C.
  apply bind_inv in C as (b & s3 & X & C). apply exact_inv in X as (L & -> & ->). rewrite <- (take_drop 12 (drop p d)) at 1.
  assert (L12 : len (take 12 (drop p d)) = 12) by (rewrite len_take; change DATA_DESCRIPTOR_LENGTH with 12 in L; lia).
  destruct (bytes_eqb _ _) eqn:B.
  - apply bytes_eqb_eq in B. apply bind_inv in C as (b & s3 & X & C). apply exact_inv in X as (L' & _ & ->). unfold ret in C. injection C as <-. cbn [s_pos src].
    change DATA_DESCRIPTOR_LENGTH with 12 in *. change SIGNATURE_LENGTH with 4 in *. change DATA_DESCRIPTOR_SIGNATURE with 0x08074b50 in B.
    rewrite <- (drop_drop _ (p + 12)). rewrite <- (drop_drop 12 p) in *.
    rewrite <- (take_drop 4 (take 12 (drop p d))) at 1. rewrite B. rewrite <- (take_drop 4 (drop 12 (drop p d))) at 1.
    rewrite <- !app_assoc. rewrite (app_assoc (drop 4 _)). constructor. rewrite len_app, len_drop, L12, len_take. lia.
  - unfold ret in C. injection C as <-. cbn [s_pos src]. change DATA_DESCRIPTOR_LENGTH with 12 in *. rewrite <- drop_drop.
    constructor; [exact L12|]. intro X. change SIGNATURE_LENGTH with 4 in B. change DATA_DESCRIPTOR_SIGNATURE with 0x08074b50 in B.
    change (firstn 4 (take 12 (drop p d))) with (firstn (N.to_nat 4) (take 12 (drop p d))) in X. rewrite <- take_firstn in X.
    rewrite X, bytes_eqb_refl in B. discriminate.
Qed.
Lemma whole_data s z m : len (s_data s) < 0x10000000000000000 -> past (s_pos s) (s_data s) = m ->
  take (if en_data_descriptor z then 0xFFFFFFFFFFFFFFFF else en_compressed_size z) (drop (s_pos s) (s_data s)) = data_of z m.
Proof.
  intros L <-. unfold data_of. rewrite past_drop. destruct (en_data_descriptor z).
  - change 0xFFFFFFFFFFFFFFFF with u64_max. now apply window_all.
  - now rewrite upto_take.
Qed.
(** what [leave] does with the reader of an entry *)
Lemma leave_cases cd choice s z c n desc : nofail (s_sched s) ->
  let w := take n (drop (s_pos s) (s_data s)) in
  let x := leave cd choice {| rd_reader := er_new s c n; rd_entry := z; rd_descriptor := desc |} in
  (snd (decoded cd c w) = false -> exists e, x = Err e) /\
  (forall out k, decoded cd c w = (out, true) -> entry_span cd c w = Some k ->
     exists b s', stands s' (s_data s) (s_pos s + k) /\ x = (let? s2 := after_entry desc s' in Ok (b, s2)) /\
       match choice with None => b = out | Some _ => exists rest, out = b ++ rest end).
Proof.
  intros N w x. unfold x, leave. cbn [rd_reader rd_entry rd_descriptor]. destruct choice as [sizes|].
  - pose proof (skip_spec cd s c n sizes z desc N) as K. pose proof (er_reads_steps cd sizes (er_new s c n)) as S.
    destruct (er_reads cd sizes (er_new s c n)) as [xs r]. cbv zeta in K. fold w in K. destruct K as [K1 K2]. split.
    + intro F. rewrite (K1 F). eexists. reflexivity.
    + intros out k D E. destruct (K2 k E) as (s' & S' & ->). exists (delivered xs), s'. split; [exact S'|]. split; [reflexivity|].
      pose proof (steps_content _ _ _ _ S) as SC. rewrite content_new in SC. fold w in SC. rewrite D in SC. injection SC as -> _. eexists. reflexivity.
  - pose proof (er_read_to_end_nofail cd (er_new s c n) N) as V. rewrite content_new in V. fold w in V.
    destruct (er_read_to_end cd (er_new s c n)) as [y r] eqn:E. cbn [fst] in V. split.
    + intro F. rewrite F in V. subst y. cbn [rbind]. eexists. reflexivity.
    + intros out k D SP. rewrite D in V. cbn [fst snd] in V. subst y. cbn [rbind].
      destruct (to_end_as_reads _ _ _ _ _ E) as (reads & R). pose proof (done_spec cd s c n reads z desc N) as K.
      destruct (er_reads cd reads (er_new s c n)) as [xs r2]. destruct R as [-> R]. cbv zeta in K. fold w in K. destruct K as (_ & _ & K).
      rewrite D in K. destruct (K R k SP) as (s' & S' & ->). exists out, s'. split; [exact S'|]. now split.
Qed.

Lemma next_nofail cfg s x s' : nofail (s_sched s) -> stream_next cfg s = (x, s') -> nofail (s_sched s').
Proof.
  intros N E. destruct (agrees_any (lfh_read cfg) s (insens_lfh_read cfg) N) as (q & A & _ & Nq). unfold stream_next in E. rewrite A in E.
  destruct (fst (lfh_read cfg (calm s))) as [[e|]|e|e]; injection E as _ <-; exact Nq.
Qed.

(** ** The walk *)
Lemma top_long l t m : read_top l t m -> len m + 30 <= len l.
Proof. destruct 1 as [? ? ? ? ? ? ? ? ? ? m xs' N _]. apply nums_long in N. change (widths_of _) with 30 in N. rewrite !len_past. lia. Qed.
Lemma goes_size cd l xs : goes cd l xs -> 30 * len xs <= len l.
Proof.
  induction 1 as [l|l t m z out k tail xs R T _ _ _ B _ IH]; [change (len (@nil (zentry * bytes))) with 0; lia|].
  pose proof (top_size _ _ _ _ R T) as H.
  assert (R0 : len m + 30 <= len l) by exact (top_long _ _ _ R).
  assert (len tail <= len (past k m)) by (destruct B; rewrite ?len_app; lia). rewrite len_past in *. rewrite len_cons. lia.
Qed.
Lemma pick_takes cd cfg pl d : len d < 0x10000000000000000 -> forall l xs, goes cd l xs ->
  forall s p, stands s d p -> past p d = l -> forall i n, (length xs < n)%nat -> exists ys, pick cd cfg pl n i s = Ok ys /\ picked pl i xs ys.
Proof.
  intros LD l xs G. induction G as [l|l t m z out k tail xs R T Rd D E B G IH]; intros s p S P i n Hn; (destruct n as [|n]; [lia|]); cbn [pick].
  - destruct S as (<- & <- & N). destruct (next_ends cfg s N) as (s' & ->).
    + exists (firstn (N.to_nat (s_pos s)) (s_data s)), l. rewrite <- P. unfold past. rewrite firstn_skipn. split; [reflexivity|].
      apply (f_equal len) in P. rewrite len_past, len_app in P. change (len (le 4 0x02014b50)) with 4 in P.
      rewrite <- take_firstn, len_take. lia.
    + exists []. split; [reflexivity|exact I].
  - destruct S as (<- & <- & N). rewrite <- P in R. destruct (next_takes cfg s t m z N R T Rd) as (rd & s1 & NX & RE & M).
    pose proof (next_nofail _ _ _ _ N NX) as N1. rewrite NX. cbn [fst rbind]. pose proof (next_reads _ _ _ _ NX) as (D1 & _ & _ & _ & _ & RD & RR).
    subst z. rewrite D1 in M.
    pose proof (leave_cases cd (pl i (rd_entry rd)) s1 (rd_entry rd) (en_compression (rd_entry rd))
      (if en_data_descriptor (rd_entry rd) then 0xFFFFFFFFFFFFFFFF else en_compressed_size (rd_entry rd)) (rd_descriptor rd) N1) as K.
    assert (RID : {| rd_reader := rd_reader rd; rd_entry := rd_entry rd; rd_descriptor := rd_descriptor rd |} = rd) by now destruct rd.
    rewrite <- RR, RID in K. rewrite (whole_data s1 _ m) in K by (rewrite ?D1; assumption). cbv zeta in K. destruct K as [_ K].
    destruct (K out k D E) as (b & s' & S' & EQ & PK).
    rewrite EQ, RD. rewrite D1 in *.
    assert (B' : behind (en_data_descriptor (rd_entry rd)) (past (s_pos s1 + k) (s_data s)) tail).
    { rewrite past_drop, <- drop_drop, <- past_drop, <- past_drop, M. exact B. }
    destruct (after_behind _ _ _ _ _ S' B') as (s2 & -> & S2 & P2). cbn [rbind fst snd]. cbn [length] in Hn.
    destruct (IH s2 _ S2 P2 (Datatypes.S i) n ltac:(lia)) as (ys & -> & Q). cbn [rbind]. eexists. split; [reflexivity|]. cbn [picked]. now split.
Qed.
Lemma pick_reads cd cfg pl d : len d < 0x10000000000000000 -> forall n i s p ys, stands s d p -> pick cd cfg pl n i s = Ok ys ->
  exists xs, goes cd (past p d) xs /\ picked pl i xs ys.
Proof.
  intros LD. induction n as [|n IH]; intros i s p ys S H; [discriminate H|]. destruct S as (<- & <- & N). cbn [pick] in H.
  destruct (stream_next cfg s) as [[[rd|]|?|?] s1] eqn:NX; try discriminate H; cbn [fst rbind] in H.
  - pose proof (next_nofail _ _ _ _ N NX) as N1. pose proof (next_reads _ _ _ _ NX) as (D1 & t & R & T & Rd & RD & RR).
    pose proof (leave_cases cd (pl i (rd_entry rd)) s1 (rd_entry rd) (en_compression (rd_entry rd))
      (if en_data_descriptor (rd_entry rd) then 0xFFFFFFFFFFFFFFFF else en_compressed_size (rd_entry rd)) (rd_descriptor rd) N1) as K.
    assert (RID : {| rd_reader := rd_reader rd; rd_entry := rd_entry rd; rd_descriptor := rd_descriptor rd |} = rd) by now destruct rd.
    rewrite <- RR, RID in K. rewrite (whole_data s1 _ _ ltac:(now rewrite D1) eq_refl) in K. cbv zeta in K.
    destruct (leave cd _ _) as [[b s2]|?|?] eqn:LV; try discriminate H. cbn [rbind fst snd] in H.
    destruct (decoded cd (en_compression (rd_entry rd)) (data_of (rd_entry rd) (past (s_pos s1) (s_data s1)))) as [out ok] eqn:D. destruct K as [K0 K].
    destruct ok; [|destruct (K0 eq_refl) as (? & K1); discriminate K1].
    destruct (proj1 (span_sound cd (en_compression (rd_entry rd)) (data_of (rd_entry rd) (past (s_pos s1) (s_data s1)))) ltac:(now rewrite D)) as (k & E).
    destruct (K out k eq_refl E) as (b' & s' & S' & EQ & PK). destruct (after_entry (rd_descriptor rd) s') as [s2'|?|?] eqn:AE; try discriminate EQ.
    cbn [rbind] in EQ. injection EQ as <- <-. rewrite D1 in *. destruct (behind_after _ _ _ _ _ S' AE) as [B S2].
    destruct (pick cd cfg pl n (Datatypes.S i) s2) as [l|?|?] eqn:PI; try discriminate H. cbn [rbind] in H. injection H as <-.
    destruct (IH _ _ _ _ S2 PI) as (xs & G & Q). exists ((rd_entry rd, out) :: xs). split; [|cbn [picked]; now split].
    eapply goes_entry; try eassumption. rewrite RD in B. rewrite !past_drop in *. now rewrite drop_drop.
  - injection H as <-. exists []. split; [|exact I]. apply next_reads in NX as (_ & (a & b & E & L) & _). rewrite past_drop, E.
    replace (drop _ _) with (le 4 0x02014b50 ++ b) by (symmetry; now apply drop_app_exact). constructor.
Qed.
Lemma goes_unique cd l xs ys : len l < 0x10000000000000000 -> goes cd l xs -> goes cd l ys -> xs = ys.
Proof.
  intros L G1 G2. set (pl := fun (_ : nat) (_ : zentry) => @None (list N)).
  assert (P : forall a i b, picked pl i a b -> b = a).
  { induction a as [|[z o] a IH]; intros i [|[z' o'] b] H; try contradiction; [reflexivity|]. destruct H as (-> & -> & H). now rewrite (IH _ _ H). }
  set (cfg := {| overflow_checks := true; entry_mem_size := 1 |}).
  assert (S : stands (src l 0) l 0) by (repeat split; constructor).
  destruct (pick_takes cd cfg pl l L l xs G1 _ _ S eq_refl 0%nat (Datatypes.S (length xs + length ys)) ltac:(lia)) as (a & A & PA).
  destruct (pick_takes cd cfg pl l L l ys G2 _ _ S eq_refl 0%nat (Datatypes.S (length xs + length ys)) ltac:(lia)) as (b & B & PB).
  apply P in PA, PB. subst a b. rewrite A in B. now injection B.
Qed.
Lemma after_panic desc s p : nofail (s_sched s) -> after_entry desc s <> Panic p.
Proof.
  intro N. destruct desc; [|discriminate]. cbn [after_entry]. pose proof (consume_cases s N) as C.
  destruct (consume_data_descriptor s) as [[?|?|?] ?]; discriminate.
Qed.
(** a walk ends: each entry takes at least the 30 bytes of its header *)
Lemma pick_panics cd cfg pl d : len d < 0x10000000000000000 -> forall n i s p q, stands s d p -> len (past p d) < 30 * N.of_nat n ->
  pick cd cfg pl n i s = Panic q -> q = POverflow /\ overflow_checks cfg = true.
Proof.
  intros LD. induction n as [|n IH]; intros i s p q S Hn H; [cbn in Hn; lia|]. destruct S as (<- & <- & N). cbn [pick] in H.
  destruct (stream_next cfg s) as [[[rd|]|?|?] s1] eqn:NX; try discriminate H; cbn [fst rbind] in H.
  - pose proof (next_nofail _ _ _ _ N NX) as N1. pose proof (next_reads _ _ _ _ NX) as (D1 & t & R & _ & _ & RD & RR).
    pose proof (leave_cases cd (pl i (rd_entry rd)) s1 (rd_entry rd) (en_compression (rd_entry rd))
      (if en_data_descriptor (rd_entry rd) then 0xFFFFFFFFFFFFFFFF else en_compressed_size (rd_entry rd)) (rd_descriptor rd) N1) as K.
    assert (RID : {| rd_reader := rd_reader rd; rd_entry := rd_entry rd; rd_descriptor := rd_descriptor rd |} = rd) by now destruct rd.
    rewrite <- RR, RID in K. rewrite (whole_data s1 _ _ ltac:(now rewrite D1) eq_refl) in K. cbv zeta in K.
    set (w := data_of (rd_entry rd) (past (s_pos s1) (s_data s1))) in K. set (c := en_compression (rd_entry rd)) in K.
    destruct (decoded cd c w) as [out ok] eqn:D. destruct K as [K0 K]. destruct ok.
    2:{ destruct (K0 eq_refl) as (? & K1). rewrite K1 in H. discriminate H. }
    destruct (proj1 (span_sound cd c w) ltac:(now rewrite D)) as (k & E). destruct (K out k eq_refl E) as (b & s' & S' & EQ & _). rewrite EQ in H.
    destruct (after_entry (rd_descriptor rd) s') as [s2|?|?] eqn:AE; [|discriminate H|now elim (after_panic _ _ _ (proj2 (proj2 S')) AE)].
    cbn [rbind fst snd] in H. rewrite D1 in *. destruct (behind_after _ _ _ _ _ S' AE) as [B S2].
    destruct (pick cd cfg pl n (Datatypes.S i) s2) as [l|?|?] eqn:PI; try discriminate H. cbn [rbind] in H. injection H as <-.
    apply (IH _ _ _ _ S2) in PI; [exact PI|].
    assert (R0 : len (past (s_pos s1) (s_data s)) + 30 <= len (past (s_pos s) (s_data s))) by exact (top_long _ _ _ R).
    assert (len (past (s_pos s2) (s_data s)) <= len (past (s_pos s1 + k) (s_data s))) by (destruct B; rewrite ?len_app; lia). rewrite !len_past in *. rewrite Nnat.Nat2N.inj_succ in Hn. lia.
  - injection H as <-. apply (stream_next_panics cfg s). now rewrite NX.
Qed.

(** ** By the directory *)
Lemma result_outcome cd d e : read_result cd e d = outcome cd d e.
Proof.
  unfold outcome. rewrite past_drop, upto_take, StrictProofs.value_from. set (h := drop (st_file_offset e) d).
  unfold read_result, data_offset. fold h. rewrite len_take, take_take. change (N.min 4 30) with 4.
  destruct (N.ltb_spec (len h) 4) as [L4|L4].
  { replace (N.min 30 (len h) <? 4) with true by lia. reflexivity. }
  replace (N.min 30 (len h) <? 4) with false by lia. change LFH_SIGNATURE with 0x04034b50.
  destruct (negb _); [reflexivity|]. destruct (N.ltb_spec (len h) 30) as [L|L].
  { replace (N.min 30 (len h) <? 30) with true by lia. reflexivity. }
  replace (N.min 30 (len h) <? 30) with false by lia. unfold h in *. rewrite len_drop in L. rewrite header_lengths by lia. cbv zeta.
  change u64_max with 0xFFFFFFFFFFFFFFFF. rewrite N.ltb_antisym. destruct (_ <=? 0xFFFFFFFFFFFFFFFF); cbn [negb]; [|reflexivity].
  cbn [rbind]. rewrite <- region_take. unfold checked_content. destruct (decoded cd _ _) as [b []]; reflexivity.
Qed.
Lemma read_outcome cd f i s : nofail (s_sched s) ->
  read_entry cd f i s = match entry_at f i with None => Err EntryIndexOutOfBounds | Some e => outcome cd (s_data s) e end.
Proof. intro N. rewrite read_entry_closed by exact N. destruct (entry_at f i); [apply result_outcome|reflexivity]. Qed.
Lemma mem_outcome cd m i : mem_read_entry cd m i = match entry_at (m_file m) i with None => Err EntryIndexOutOfBounds | Some e => outcome cd (m_data m) e end.
Proof. rewrite mem_read_entry_closed. destruct (entry_at (m_file m) i); [apply result_outcome|reflexivity]. Qed.
(** where the data starts *)
Lemma start_of d off needed flags method time date crc cs us nl xl m :
  nums [4; 2; 2; 2; 2; 2; 4; 4; 4; 2; 2]%nat (past off d) = Some ([0x04034b50; needed; flags; method; time; date; crc; cs; us; nl; xl], m) ->
  off + 30 <= len d /\ data_start d off = off + 30 + nl + xl /\ m = past (off + 30) d /\ nl < 0x10000 /\ xl < 0x10000.
Proof.
  intro N. pose proof (nums_long _ _ _ _ N) as L. change (widths_of _) with 30 in L. rewrite len_past in L.
  apply AcceptProofs.nums_fs in N as (_ & E & W). cbn [List.combine] in W, E. assert (LO : off + 30 <= len d) by lia.
  apart_widths. change (256 ^ 2) with 0x10000 in *.
  match type of E with _ = record ?fs ++ _ => change (record fs) with (local_header needed flags method time date crc cs us nl xl) in E end.
  rewrite past_drop in E. pose proof (take_drop off d) as T. rewrite E in T.
  assert (LT : len (take off d) = off) by (rewrite len_take; lia).
  split; [exact LO|]. split; [|split; [|now split]].
  - rewrite <- T at 1. rewrite <- LT at 2. rewrite data_start_at by assumption. now rewrite LT.
  - rewrite past_drop, <- drop_drop, E. symmetry. now apply drop_app_exact.
Qed.
Lemma stands_outcome cd d r e b : len d < 0xFFFFFFFFFFFE0000 -> stands_there cd d r (e, b) -> tells r e /\ outcome cd d e = Ok b.
Proof.
  intros LD (T & needed & flags & method & time & date & crc & cs & us & nl & xl & m & N & D & C). cbn [fst snd] in *. split; [exact T|].
  destruct (start_of _ _ _ _ _ _ _ _ _ _ _ _ _ N) as (LO & DS & -> & NL & XL). rewrite <- result_outcome, read_result_checked.
  - unfold checked_content. rewrite region_take, DS. rewrite upto_take, !past_drop, drop_drop in D.
    replace (st_file_offset e + 30 + nl + xl) with (st_file_offset e + 30 + (nl + xl)) by lia. rewrite D.
    destruct T as (_ & _ & _ & _ & _ & -> & _). now rewrite C, N.eqb_refl.
  - split; [|split; [exact LO|]].
    + apply signature_at; [reflexivity|]. pose proof (nums_head _ _ _ _ _ _ N) as H. change (N.of_nat 4) with 4 in H. rewrite past_drop in H.
      split; [rewrite len_drop; lia|now symmetry].
    + rewrite DS. unfold u64_max. lia.
Qed.
Lemma outcome_stands cd d r e b : tells r e -> outcome cd d e = Ok b -> stands_there cd d r (e, b).
Proof.
  intros T O. split; [exact T|]. cbn [fst snd]. unfold outcome in O. set (h := past (st_file_offset e) d) in *.
  destruct (len h <? 4) eqn:L4; [discriminate O|]. destruct (negb _) eqn:Sg; [discriminate O|]. destruct (len h <? 30) eqn:L; [discriminate O|].
  destruct (_ <? data_start _ _) eqn:LS; [discriminate O|]. apply N.ltb_ge in L, LS.
  destruct (nums_total [4; 2; 2; 2; 2; 2; 4; 4; 4; 2; 2]%nat h) as (vs & m & N); [change (widths_of _) with 30; exact L|].
  pose proof (proj1 (AcceptProofs.nums_fs _ _ _ _ N)) as Ln. change (length [4; 2; 2; 2; 2; 2; 4; 4; 4; 2; 2]%nat) with 11%nat in Ln.
  do 11 (destruct vs as [|? vs]; [discriminate Ln|apply eq_add_S in Ln]). destruct vs; [|discriminate Ln].
  pose proof (nums_head _ _ _ _ _ _ N) as Hd. change (N.of_nat 4) with 4 in Hd.
  rewrite upto_take, StrictProofs.value_from in Sg. rewrite <- Hd in Sg. apply Bool.negb_false_iff, N.eqb_eq in Sg. rewrite Sg in N.
  do 11 eexists. split; [exact N|]. destruct (start_of _ _ _ _ _ _ _ _ _ _ _ _ _ N) as (LO & DS & -> & NL & XL).
  rewrite upto_take, !past_drop, drop_drop. unfold checked_content in O. rewrite region_take, DS in O.
  match type of O with context [drop ?a d] => match goal with |- context [drop ?b d] => replace a with b in O by lia end end.
  destruct (decoded cd _ _) as [b' []]; [|discriminate O]. destruct T as (_ & _ & _ & _ & _ & T & _). rewrite T in O.
  destruct (N.eqb_spec (crc32_spec b') (w_crc r)); [|discriminate O]. injection O as <-. now split.
Qed.
Lemma read_each_ok cd m : forall es i xs, (forall k, nth_error (f_entries (m_file m)) (N.to_nat i + k) = nth_error es k) ->
  read_each cd m i es = Ok xs <-> Forall2 (fun e x => fst x = e /\ outcome cd (m_data m) e = Ok (snd x)) es xs.
Proof.
  induction es as [|e es IH]; intros i xs H; cbn [read_each].
  - split; [intro E; injection E as <-; constructor|intro F; now inversion F].
  - pose proof (H 0%nat) as H0. rewrite Nat.add_0_r in H0. cbn [nth_error] in H0. rewrite mem_outcome. unfold entry_at. rewrite H0.
    assert (H' : forall k, nth_error (f_entries (m_file m)) (N.to_nat (i + 1) + k) = nth_error es k).
    { intro k. specialize (H (S k)). cbn [nth_error] in H. rewrite <- H. f_equal. lia. }
    split.
    + intro E. destruct (outcome cd (m_data m) e) as [b|?|?] eqn:O; try discriminate E. cbn [rbind] in E.
      destruct (read_each cd m (i + 1) es) as [l|?|?] eqn:R; try discriminate E. cbn [rbind] in E. injection E as <-.
      constructor; [now split|]. now apply (IH (i + 1)).
    + intro F. inversion F as [|? [e' b] ? l [F1 F2] F3]; subst. cbn [fst snd] in *. rewrite F2. cbn [rbind]. apply (IH (i + 1) l H') in F3. rewrite F3. cbn [rbind]. reflexivity.
Qed.
Lemma everything_reads cd cfg d xs : read_everything cd cfg d = Ok xs -> exists x rs, says d x rs /\ Forall2 (stands_there cd d) rs xs.
Proof.
  unfold read_everything, mem_new. intro E. destruct (fst (file cfg (cursor d))) as [f|?|?] eqn:F; try discriminate E. cbn [rbind] in E.
  apply file_reads in F as (x & rs & S & (T & _)). exists x, rs. split; [exact S|]. cbn [cursor s_data] in *.
  apply (read_each_ok cd _ _ 0) in E; [|reflexivity]. cbn [m_data m_file] in E. clear S. revert rs T.
  induction E as [|e [e' b] es xs [E1 E2] _ IH]; intros rs T; inversion T as [|r ? rs' ? T1 T2]; subst; constructor.
  - cbn [fst snd] in *. now apply outcome_stands.
  - now apply IH.
Qed.
Lemma everything_takes cd cfg d x rs xs : len d < 0xFFFFFFFFFFFE0000 -> says d x rs -> Forall2 (stands_there cd d) rs xs ->
  len d <= n_at x + 65557 -> n_count x * entry_mem_size cfg <= isize_max ->
  match n_locator x with Some lo => lo + 4 < 0x10000000000000000 | None => True end ->
  read_everything cd cfg d = Ok xs.
Proof.
  intros LD S T L C O. 
  set (f := {| f_entries := map fst xs; f_zip64 := match n_locator x with Some _ => true | None => false end; f_comment := zs_new (n_comment x) EUtf8 |}).
  assert (F : fst (file cfg (cursor d)) = Ok f).
  { apply (file_takes cfg (cursor d) x rs f); try assumption; [constructor|]. split; [|split; [reflexivity|apply zs_comment]]. cbn [f f_entries].
    clear S. induction T as [|r y rs xs H _ IH]; constructor; [exact (proj1 H)|exact IH]. }
  unfold read_everything, mem_new. rewrite F. cbn [rbind]. apply read_each_ok; [reflexivity|]. cbn [m_data m_file f f_entries].
  clear F f S. induction T as [|r [e b] rs xs H _ IH]; constructor; [|exact IH]. split; [reflexivity|]. exact (proj2 (stands_outcome cd d r e b LD H)).
Qed.
