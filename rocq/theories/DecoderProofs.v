(** Entries read through a decoder that is polled. *)
From Verif Require Import Base BaseFacts SpecFormat SpecCrc Crc32 CrcFacts SpecArchive SpecRead Headers Entry IO IOFacts Reader ReaderFacts EntryReader EntryReaderFacts SpecStream
  EntryProofs ReadProofs ReaderPolls SpecReadPolls ReadPollProofs DecoderPolls SpecDecoder.
From Verif Require Import SpecWrite SpecEncoder Writer EncoderPolls EndProofs EncoderProofs.
Import SpecReadPolls.
Arguments N.add : simpl never.
Arguments N.sub : simpl never.

Lemma ahead_take s l : ahead s l = take l (drop (s_pos s) (s_data s)).
Proof. unfold ahead. now rewrite take_firstn, drop_skipn. Qed.
Lemma prefix_full {A} (a b : list A) : prefix (a ++ b) a -> b = [].
Proof. intros (c & E). apply (f_equal (@length A)) in E. rewrite !app_length in E. destruct b; [reflexivity|cbn in E; lia]. Qed.

Section Decoder.
Context (cd : codec) (D : decoder) (view : dg_state D -> compression * bytes * bytes) (inv : dg_state D -> bytes -> Prop) (OK : decoder_ok cd D view inv).

(** a reader of the bytes [W] that are from [p0] on, and that handed over [out] *)
Definition midway (p0 : N) (c : compression) (W : bytes) (r : dreader D) (out : bytes) : Prop :=
  dr_hash r = hasher_update hasher_new out /\
  match dr_state r with
  | None => c = Stored /\ s_pos (dr_src r) = p0 + len out /\ out ++ ahead (dr_src r) (dr_limit r) = W
  | Some g => c <> Stored /\ exists eaten, view g = (c, eaten, out) /\ inv g (ahead (dr_src r) (dr_limit r)) /\ s_pos (dr_src r) = p0 + len eaten /\ eaten ++ ahead (dr_src r) (dr_limit r) = W /\ prefix out (fst (dec cd c W))
  end.
Lemma midway_prefix p0 c W r out : midway p0 c W r out -> prefix out (fst (decoded cd c W)).
Proof.
  intros [_ H]. unfold decoded. destruct (dr_state r) as [g|].
  - destruct H as (NS & eaten & _ & _ & _ & _ & P). destruct c; [contradiction|..]; destruct (dec cd _ W); exact P.
  - destruct H as (-> & _ & <-). apply prefix_app.
Qed.
Lemma midway_new s c n : midway (s_pos s) c (ahead s n) (dr_new D s c n) [].
Proof.
  split; [reflexivity|]. unfold dr_new. cbn [dr_state dr_src dr_limit].
  destruct c; [repeat split; unfold len; cbn; lia|..]; (split; [discriminate|]; exists []; rewrite (proj1 (proj1 OK _ [])); split; [reflexivity|]; split; [apply (proj1 OK)|]; split; [unfold len; cbn; lia|]; split; [reflexivity|]; unfold prefix; cbn [app]; eexists; reflexivity).
Qed.

Definition faulted (e : io_error) (s s' : source) : Prop := exists k u, e = IoOther k /\ s_sched s = u ++ s_sched s' /\ In (RFail k) u.
Lemma poll_midway p0 c W r out n : midway p0 c W r out ->
  let '(p, r') := dr_poll_read n r in
  s_data (dr_src r') = s_data (dr_src r) /\ (exists u, s_sched (dr_src r) = u ++ s_sched (dr_src r')) /\
  match p with
  | RPend => midway p0 c W r' out
  | RGot b => len b <= n /\ midway p0 c W r' (out ++ b) /\ (0 < n -> b = [] -> decoded cd c W = (out, true) /\ exists k, entry_span cd c W = Some k /\ s_pos (dr_src r') = p0 + k)
  | RErr e => faulted e (dr_src r) (dr_src r') /\ midway p0 c W r' out \/ malformed e /\ snd (decoded cd c W) = false
  end.
Proof.
  intros [H S]. unfold dr_poll_read, dr_inner_poll. destruct (dr_state r) as [g|] eqn:ST.
  - destruct S as (NS & eaten & V & IN & PO & EW & P). pose proof (proj2 OK n g (dr_src r) (dr_limit r)) as C.
    destruct (dg_poll D n g (dr_src r) (dr_limit r)) as [[[p g'] s'] l']. rewrite V in C. destruct (view g') as [[c' eaten'] given'] eqn:V'.
    destruct C as (b & u & (U1 & U2 & U3 & U4 & U5) & C). destruct (C IN) as (-> & -> & C1). cbv zeta in C1.
    assert (PO' : s_pos s' = p0 + len (eaten ++ b)) by (rewrite len_app; lia). assert (WW : (eaten ++ b) ++ ahead s' l' = W) by (rewrite <- app_assoc, <- U5; exact EW). rewrite WW in C1.
    assert (DC : decoded cd c W = (fst (dec cd c W), match snd (dec cd c W) with Some _ => true | None => false end)).
    { unfold decoded. destruct c; [contradiction|..]; now destruct (dec cd _ W). }
    destruct p as [|o|e]; cbn [dr_src dr_limit dr_hash dr_state]; (split; [exact U1|]; split; [now exists u|]).
    + destruct C1 as (-> & IN'). split; [exact H|]. split; [exact NS|]. now exists (eaten ++ b).
    + destruct C1 as (L & -> & IN' & PF & EN). split; [exact L|]. split.
      * split; [cbn [dr_hash]; now rewrite H, hasher_update_app|]. split; [exact NS|]. now exists (eaten ++ b).
      * intros N0 ->. specialize (EN N0 eq_refl). rewrite app_nil_r in EN. rewrite DC, EN. split; [reflexivity|]. exists (len (eaten ++ b)). split; [|exact PO'].
        unfold entry_span. destruct c; [contradiction|..]; now rewrite EN.
    + destruct C1 as (-> & [((k & -> & I) & IN')|(M & NO)]).
      * left. split; [now exists k, u|]. split; [exact H|]. split; [exact NS|]. now exists (eaten ++ b).
      * right. split; [exact M|]. now rewrite DC, NO.
  - destruct S as (-> & PO & EW). destruct (N.eqb_spec (dr_limit r) 0) as [Z|Z].
    + split; [reflexivity|]. split; [now exists []|]. split; [unfold len; cbn; lia|]. cbn [dr_src dr_limit dr_state dr_hash]. rewrite app_nil_r. split.
      * split; [exact H|]. cbn [dr_state]. rewrite ST. now split.
      * intros _ _. assert (WO : W = out) by (rewrite <- EW, ahead_take, Z, take_firstn; cbn; now rewrite app_nil_r). split; [now rewrite WO|].
        exists (len out). cbn. rewrite WO. now split.
    + unfold poll_read. rewrite ahead_take in EW. destruct (dr_src r) as [d pos q]. cbn [s_data s_pos s_sched] in *.
      assert (G : forall k q', k <= n -> k <= dr_limit r -> (0 < n -> 0 < k) ->
        let b := take k (drop pos d) in
        len b <= n /\ midway p0 Stored W {| dr_src := {| s_data := d; s_pos := pos + len b; s_sched := q' |}; dr_limit := dr_limit r - len b; dr_state := None;
                                         dr_hash := hasher_update (dr_hash r) b |} (out ++ b) /\
        (0 < n -> b = [] -> decoded cd Stored W = (out, true) /\ exists k, entry_span cd Stored W = Some k /\ pos + len b = p0 + k)).
      { intros k q' K1 K2 K3. cbv zeta. split; [rewrite len_take; lia|]. split.
        - split; [cbn [dr_hash]; now rewrite H, hasher_update_app|]. cbn [dr_state dr_src dr_limit]. split; [reflexivity|]. split; [cbn [s_pos]; rewrite len_app; lia|]. rewrite ahead_take. cbn [s_pos s_data].
          rewrite <- EW, <- app_assoc. f_equal. rewrite len_take.
          rewrite <- (take_drop k (take (dr_limit r) (drop pos d))) at 1. rewrite take_take. replace (N.min k (dr_limit r)) with k by lia. f_equal.
          destruct (N.leb_spec k (len (drop pos d))) as [L|L].
          + replace (N.min k (len (drop pos d))) with k by lia. rewrite <- drop_drop. now rewrite drop_take.
          + replace (N.min k (len (drop pos d))) with (len (drop pos d)) by lia. rewrite len_drop in *.
            rewrite (take_all (dr_limit r)) by (rewrite len_drop; lia). rewrite !drop_all; rewrite ?len_drop; try lia. now destruct (dr_limit r - (len d - pos)).
        - intros N0 B.
          assert (L0 : len (drop pos d) = 0) by (apply (f_equal (@len byte)) in B; rewrite len_take in B; unfold len at 2 in B; cbn [length] in B; specialize (K3 N0); lia).
          assert (WO : W = out). { rewrite <- EW. destruct (drop pos d) as [|x y]; [|unfold len in L0; cbn [length] in L0; lia]. destruct (dr_limit r); cbn; now rewrite app_nil_r. }
          rewrite B. split; [now rewrite WO|]. exists (len out). cbn [entry_span]. rewrite WO. split; [reflexivity|]. unfold len at 1. cbn [length]. lia. }
      destruct q as [|[|k|k] q]; cbn [dr_src dr_limit dr_hash dr_state].
      * split; [reflexivity|]. split; [now exists []|]. apply G; lia.
      * split; [reflexivity|]. split; [now exists [RPending]|]. split; [exact H|]. cbn [dr_state dr_src dr_limit]. split; [reflexivity|]. split; [exact PO|].
        rewrite N.sub_0_r, ahead_take. exact EW.
      * split; [reflexivity|]. split; [now exists [RChunk k]|]. apply G; lia.
      * split; [reflexivity|]. split; [now exists [RFail k]|]. left. split; [exists k, [RFail k]; cbn; auto|]. split; [exact H|]. cbn [dr_state dr_src dr_limit]. split; [reflexivity|]. split; [exact PO|].
        rewrite N.sub_0_r, ahead_take. exact EW.
Qed.

Lemma poll_room c (r : dreader D) : exists n, dr_poll c r = dr_poll_read n r /\ (has_room c -> 0 < n).
Proof.
  destruct c as [n|ns]; [now exists n|]. exists (first_room ns). split; [reflexivity|]. intro H. now apply room_iff.
Qed.
Lemma polls_midway p0 c W l : forall r out, midway p0 c W r out -> let '(ps, r') := dr_polls l r in
  s_data (dr_src r') = s_data (dr_src r) /\ (exists u, s_sched (dr_src r) = u ++ s_sched (dr_src r')) /\
  (Exists found_bad ps -> snd (decoded cd c W) = false) /\
  (~ Exists found_bad ps -> midway p0 c W r' (out ++ told ps) /\ (Exists at_end ps -> decoded cd c W = (out ++ told ps, true))).
Proof.
  induction l as [|x l IH]; intros r out S; cbn [dr_polls].
  - split; [reflexivity|]. split; [now exists []|]. split; [intro H; inversion H|]. intros _. cbn [told map concat]. unfold told. cbn. rewrite app_nil_r. split; [exact S|].
    intro H. inversion H.
  - destruct (poll_room x r) as (n & -> & RM). pose proof (poll_midway p0 c W r out n S) as P. destruct (dr_poll_read n r) as [p r1]. destruct P as (D1 & (u1 & U1) & P).
    assert (NB : (forall o, midway p0 c W r1 o -> out ++ told [(x, p)] = o -> (at_end (x, p) -> decoded cd c W = (out, true)) -> let '(ps, r') := dr_polls l r1 in
      s_data (dr_src r') = s_data (dr_src r) /\ (exists u, s_sched (dr_src r) = u ++ s_sched (dr_src r')) /\
      (Exists found_bad ((x, p) :: ps) -> snd (decoded cd c W) = false \/ found_bad (x, p)) /\
      (~ Exists found_bad ((x, p) :: ps) -> midway p0 c W r' (out ++ told ((x, p) :: ps)) /\ (Exists at_end ((x, p) :: ps) -> decoded cd c W = (out ++ told ((x, p) :: ps), true))))).
    { intros o So Eo AE. specialize (IH r1 o So). destruct (dr_polls l r1) as [ps r']. destruct IH as (D2 & (u2 & U2) & B & G).
      split; [congruence|]. split; [exists (u1 ++ u2); now rewrite U1, U2, app_assoc|]. split.
      - intro H. inversion H; auto.
      - intro H. destruct G as (G1 & G2); [intro X; apply H; now right|].
        assert (T : out ++ told ((x, p) :: ps) = o ++ told ps). { rewrite <- Eo. unfold told. cbn. now rewrite app_nil_r, app_assoc. }
        rewrite T. split; [exact G1|]. intro X. inversion X as [? ? Y|? ? Y]; subst; [|auto]. specialize (AE Y).
        apply midway_prefix in G1. rewrite AE in *. cbn [fst] in G1. rewrite <- app_assoc in G1. apply prefix_full in G1. now rewrite <- app_assoc, G1, app_nil_r. }
    destruct p as [|b|e].
    + specialize (NB out P). destruct (dr_polls l r1) as [ps r']. destruct NB as (A1 & A2 & A3 & A4); [unfold told; cbn; now rewrite app_nil_r|intros [_ X]; discriminate|].
      split; [exact A1|]. split; [exact A2|]. split; [|exact A4]. intro H. destruct (A3 H) as [?|[]]; assumption.
    + destruct P as (_ & P & EN). specialize (NB _ P). destruct (dr_polls l r1) as [ps r'].
      destruct NB as (A1 & A2 & A3 & A4); [unfold told; cbn; now rewrite app_nil_r|intros [HR X]; cbn in X; inversion X; subst b; apply EN; auto|].
      split; [exact A1|]. split; [exact A2|]. split; [|exact A4]. intro H. destruct (A3 H) as [?|[]]; assumption.
    + destruct P as [((k & u & -> & _) & P)|(M & P)].
      * specialize (NB out P). destruct (dr_polls l r1) as [ps r']. destruct NB as (A1 & A2 & A3 & A4); [unfold told; cbn; now rewrite app_nil_r|intros [_ X]; discriminate|].
        split; [exact A1|]. split; [exact A2|]. split; [|exact A4]. intro H. destruct (A3 H) as [?|[?|?]]; [assumption|discriminate..].
      * assert (K : forall l0 (r0 : dreader D), let '(_, r') := dr_polls l0 r0 in s_data (dr_src r') = s_data (dr_src r0) /\ exists u, s_sched (dr_src r0) = u ++ s_sched (dr_src r')).
        { clear - OK. induction l0 as [|y l0 IH]; intro r0; cbn [dr_polls]; [split; [reflexivity|now exists []]|].
          destruct (poll_room y r0) as (n & -> & _). assert (Z : let '(p, r1) := dr_poll_read n r0 in s_data (dr_src r1) = s_data (dr_src r0) /\ exists u, s_sched (dr_src r0) = u ++ s_sched (dr_src r1)).
          { unfold dr_poll_read, dr_inner_poll. destruct (dr_state r0) as [g|].
            - pose proof (proj2 OK n g (dr_src r0) (dr_limit r0)) as C. destruct (dg_poll D n g (dr_src r0) (dr_limit r0)) as [[[p g'] s'] l'].
              destruct (view g) as [[? ?] ?], (view g') as [[? ?] ?]. destruct C as (bb & u & (U1 & U2 & _) & _).
              destruct p; cbn [dr_src]; (split; [exact U1|now exists u]).
            - destruct (dr_limit r0 =? 0); [split; [reflexivity|now exists []]|]. unfold poll_read. destruct (dr_src r0) as [d pos [|[|k|k] q]]; cbn [s_sched s_data dr_src]; (split; [reflexivity|]);
                [now exists []|now exists [RPending]|now exists [RChunk k]|now exists [RFail k]]. }
          destruct (dr_poll_read n r0) as [p r1]. specialize (IH r1). destruct (dr_polls l0 r1) as [ps r']. destruct Z as (Z1 & u & Z2), IH as (I1 & v & I2).
          split; [congruence|]. exists (u ++ v). now rewrite Z2, I2, app_assoc. }
        specialize (K l r1). destruct (dr_polls l r1) as [ps r']. destruct K as (K1 & v & K2). split; [congruence|]. split; [exists (u1 ++ v); now rewrite U1, K2, app_assoc|].
        split; [intros _; exact P|]. intro H. destruct H. now left.
Qed.
Lemma to_end_midway p0 c W ns : Forall (fun n => 0 < n) ns -> forall r out, midway p0 c W r out ->
  match dr_to_end ns r with
  | (None, _) => True
  | (Some (Ok b), r') => decoded cd c W = (out ++ b, true) /\ midway p0 c W r' (out ++ b) /\ s_data (dr_src r') = s_data (dr_src r) /\
      (exists u, s_sched (dr_src r) = u ++ s_sched (dr_src r')) /\ exists k, entry_span cd c W = Some k /\ s_pos (dr_src r') = p0 + k
  | (Some (Err x), r') => (exists k, x = UpstreamReadError (IoOther k) /\ In (RFail k) (s_sched (dr_src r))) \/
      (exists e, x = UpstreamReadError e /\ malformed e) /\ snd (decoded cd c W) = false
  | (Some (Panic _), _) => False
  end.
Proof.
  induction 1 as [|n ns N0 F IH]; intros r out S; cbn [dr_to_end]; [exact I|].
  pose proof (poll_midway p0 c W r out n S) as P. destruct (dr_poll_read n r) as [p r1]. destruct P as (D1 & (u1 & U1) & P).
  destruct p as [|b|e].
  - specialize (IH r1 out P). destruct (dr_to_end ns r1) as [[[b|x|?]|] r2]; try exact IH.
    + destruct IH as (I1 & I2 & I3 & (u2 & U2) & I4). split; [exact I1|]. split; [exact I2|]. split; [congruence|]. split; [|exact I4]. exists (u1 ++ u2). now rewrite U1, U2, app_assoc.
    + destruct IH as [(k & -> & K)|X]; [left|now right]. exists k. split; [reflexivity|]. rewrite U1. apply in_or_app. now right.
  - destruct P as (_ & P & EN). specialize (IH r1 _ P). destruct b as [|b0 b].
    + rewrite app_nil_r in *. destruct (EN N0 eq_refl) as (E1 & E2). split; [exact E1|]. split; [exact P|]. split; [exact D1|]. split; [now exists u1|exact E2].
    + destruct (dr_to_end ns r1) as [[[y|x|?]|] r2]; try exact IH.
      * rewrite <- app_assoc in IH. destruct IH as (I1 & I2 & I3 & (u2 & U2) & I4). split; [exact I1|]. split; [exact I2|]. split; [congruence|]. split; [|exact I4].
        exists (u1 ++ u2). now rewrite U1, U2, app_assoc.
      * destruct IH as [(k & -> & K)|X]; [left|now right]. exists k. split; [reflexivity|]. rewrite U1. apply in_or_app. now right.
  - destruct P as [((k & u & -> & U & K) & _)|(M & P)]; [left|right].
    + exists k. split; [reflexivity|]. rewrite U. apply in_or_app. now left.
    + split; [now exists e|exact P].
Qed.

Lemma to_end_checked_new ns e s c n : Forall (fun n => 0 < n) ns ->
  match dr_to_end_checked ns e (dr_new D s c n) with
  | None => True
  | Some x => let y := fst (er_read_to_end_checked cd e (er_new (calm s) c n)) in
      x = y \/ (x = Err (UpstreamReadError UnexpectedEof) /\ y = Err (UpstreamReadError InvalidData)) \/
      exists k, In (RFail k) (s_sched s) /\ x = Err (UpstreamReadError (IoOther k))
  end.
Proof.
  intro F. unfold dr_to_end_checked. pose proof (to_end_midway _ c _ ns F _ _ (midway_new s c n)) as T.
  rewrite checked_new by constructor. change (s_pos (calm s)) with (s_pos s). change (s_data (calm s)) with (s_data s). rewrite <- ahead_take.
  destruct (dr_to_end ns (dr_new D s c n)) as [[[b|x|?]|] r']; [| |destruct T|exact I].
  - destruct T as (-> & (H & _) & _). left. cbn [app]. rewrite H. change (hasher_finalize (hasher_update hasher_new ([] ++ b))) with (crc32 b). now rewrite crc32_is_spec.
  - destruct T as [(k & -> & K)|((e1 & -> & M) & B)]; [right; right; now exists k|]. destruct (decoded cd c (ahead s n)) as [b ok]. cbn [snd] in B. subst ok.
    destruct M as [->| ->]; [now left|right; left; now split].
Qed.
Lemma decoder_reads ns f i s : Forall (fun n => 0 < n) ns ->
  match d_read_entry D ns f i s with
  | None => True
  | Some x => let y := read_entry cd f i (cursor (s_data s)) in
      x = y \/ (x = Err (UpstreamReadError UnexpectedEof) /\ y = Err (UpstreamReadError InvalidData)) \/
      exists k, In (RFail k) (s_sched s) /\ x = Err (UpstreamReadError (IoOther k))
  end.
Proof.
  intro F. unfold d_read_entry, read_entry, seek_reader_at. destruct (entry_at f i) as [e|]; [|now left].
  change (seek_to_data_offset e ;;; (s0 <- get ;; ret (er_new s0 (en_compression (st_entry e)) (en_compressed_size (st_entry e)), e)))
    with (bind (seek_to_data_offset e) (fun _ => s0 <- get ;; ret (er_new s0 (en_compression (st_entry e)) (en_compressed_size (st_entry e)), e))).
  unfold bind. assert (I : insens (seek_to_data_offset e)) by auto with insens.
  change (seek_to_data_offset e (cursor (s_data s))) with (seek_to_data_offset e (calm s)).
  specialize (I s). unfold agrees in I. destruct (seek_to_data_offset e s) as [r s'], (seek_to_data_offset e (calm s)) as [r0 s0].
  destruct I as (_ & _ & _ & u & Hu & [(_ & -> & C)|(pre & c & -> & _ & ->)]).
  - destruct r0 as [[]|x|p]; [|now left|now left]. cbn [get ret fst snd er_src er_comp er_limit er_new]. subst s0.
    pose proof (to_end_checked_new ns (st_entry e) s' (en_compression (st_entry e)) (en_compressed_size (st_entry e)) F) as T.
    destruct (dr_to_end_checked ns (st_entry e) (dr_new D s' (en_compression (st_entry e)) (en_compressed_size (st_entry e)))) as [x|]; [|exact I].
    cbv zeta in *. destruct T as [T|[T|(k & K & T)]]; [left; exact T|right; left; exact T|right; right]. exists k. split; [|exact T]. rewrite Hu. apply in_or_app. now right.
  - right. right. exists c. split; [|reflexivity]. rewrite Hu. apply in_or_app; left. apply in_or_app; right. now left.
Qed.
Lemma decoder_polled f i l s r e s' : seek_reader_at f i s = (Ok (r, e), s') ->
  let '(ps, r') := dr_polls l (dr_new D (er_src r) (er_comp r) (er_limit r)) in
  let whole := decoded cd (en_compression (st_entry e)) (region (s_data s) e) in
  s_data (dr_src r') = s_data s /\
  (Exists found_bad ps -> snd whole = false) /\
  (~ Exists found_bad ps -> prefix (told ps) (fst whole) /\ (Exists at_end ps -> whole = (told ps, true)) /\
     hasher_finalize (dr_hash r') = crc32_spec (told ps)).
Proof.
  intro O. destruct (opened_at f i s r e s' O) as (_ & -> & DS & PS). cbn [er_src er_comp er_limit er_new].
  assert (A : region (s_data s) e = ahead s' (en_compressed_size (st_entry e))) by (rewrite region_take, ahead_take; congruence). rewrite A.
  set (c := en_compression (st_entry e)). set (n := en_compressed_size (st_entry e)).
  pose proof (polls_midway _ c _ l _ _ (midway_new s' c n)) as P. destruct (dr_polls l (dr_new D s' c n)) as [ps r']. destruct P as (D1 & _ & B & G).
  split; [cbn [dr_src dr_new] in D1; congruence|]. split; [exact B|]. intro H. destruct (G H) as (G1 & G2). cbn [app] in *. split; [exact (midway_prefix _ _ _ _ _ G1)|]. split; [exact G2|].
  rewrite (proj1 G1). change (hasher_finalize (hasher_update hasher_new (told ps))) with (crc32 (told ps)). apply crc32_is_spec.
Qed.
End Decoder.

Lemma both_ways cd (E : engine cd) eview D dview inv cfg sched l : codec_ok cd -> engine_ok cd E eview -> decoder_ok cd D dview inv ->
  let '(outs, r, w) := visited_archive cd E sched l in
  let xs := map counts_as outs in
  let d := w_bytes w in
  Forall (fun x => op_good (fst x)) xs -> Forall not_ignored outs ->
  r = Ok tt -> unambiguous cd cfg (map fst xs) xs (w_zip64 w) d ->
  exists f, mem_new cfg d = Ok {| m_data := d; m_file := f |} /\
    forall i no64 o data ns s, nth_error (succeeded false xs) (N.to_nat i) = Some (no64, o) -> holds cd o data ->
      (forall it, leaves cd no64 o it -> straight it) -> Forall (fun n => 0 < n) ns -> s_data s = d ->
      match d_read_entry D ns f i s with
      | None => True
      | Some x => x = Ok data \/ exists k, In (RFail k) (s_sched s) /\ x = Err (UpstreamReadError (IoOther k))
      end.
Proof.
  intros CO EO DO. assert (B := fun s => visited_back cd E eview cfg sched s l CO EO). destruct (visited_archive cd E sched l) as [[outs r] w]. cbv zeta in *.
  intros G NI R U. destruct (B (cursor (w_bytes w)) G NI R U eq_refl (Forall_nil _)) as (f & _ & M & _ & _ & _ & RB). exists f. split; [exact M|].
  intros i no64 o data ns s NTH HO ST F DS. destruct (RB i no64 o data NTH HO ST) as (RE & _). pose proof (decoder_reads cd D dview inv DO ns f i s F) as X. rewrite DS, RE in X.
  destruct (d_read_entry D ns f i s) as [x|]; [|exact I]. cbv zeta in X. destruct X as [->|[(_ & X)|X]]; [now left|discriminate|now right].
Qed.
