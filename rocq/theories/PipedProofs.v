(** Proofs: entries carried from one archive into another. *)
From Verif Require Import Base BaseFacts Crc32 SpecFormat SpecCrc SpecArchive SpecRead SpecWrite SpecBlame SpecMade ZString ZDate Headers ExtraField Entry IO IOFacts Locator Reader ReaderFacts
  EntryReader EntryReaderFacts EntryProofs ReadProofs Writer StreamPolls EncoderPolls AwaitedWrites SpecEncoder SpecLively SpecOrdinary LivelyProofs BlameProofs MadeProofs ReaderPolls SpecReadPolls ReadPollProofs GiveUp Seeks SpecSeeks SeekProofs DecoderPolls SpecDecoder DecoderProofs
  SpecAwake AwakeProofs SpecEndure EndureProofs RemainsProofs MadeRead DecoderSeeks SpecHarsh HarshProofs Piped SpecPiped.
Import Writer SpecReadPolls SpecSeeks SeekProofs DecoderProofs AwakeProofs.
Arguments N.add : simpl never.

Section Piped.
Context (cd : codec) (D : decoder) (view : dg_state D -> compression * bytes * bytes) (inv : dg_state D -> bytes -> Prop) (OK : decoder_ok cd D view inv) (LV : decoder_lively D).
Context (E : engine cd) (k : nat).
Notation midway := (midway cd D view inv).
Notation pipe := (pipe cd D E k).
Notation pour := (pour cd E k).
Notation outlet := (outlet cd E).

(** ** The reader's side *)
Lemma pipe_reader : forall ns r (o : outlet) w, let '(x, r', c, _) := pipe ns r o w in
  match x with
  | Ended _ => dr_to_end ns r = (Some (Ok (concat c)), r')
  | ReaderEnds None => fst (dr_to_end ns r) = None
  | ReaderEnds (Some (Err e)) => fst (dr_to_end ns r) = Some (Err e)
  | ReaderEnds (Some _) => False
  | WriterEnds _ => True
  end.
Proof.
  induction ns as [|n ns IH]; intros r o w; cbn [Piped.pipe dr_to_end]; [reflexivity|].
  destruct (dr_poll_read n r) as [[|b|e] r1].
  - exact (IH r1 o w).
  - destruct b as [|y b]; [reflexivity|]. destruct (pour (y :: b) o w) as [[o'|z] w1]; [|exact I].
    specialize (IH r1 o' w1). destruct (pipe ns r1 o' w1) as [[[x r2] c] w2]. destruct (dr_to_end ns r1) as [q r3]. cbn [fst] in IH.
    destruct x as [o2|[[u|e|p]|]|z]; [injection IH as -> ->; reflexivity|exact IH|subst q; reflexivity|exact IH|subst q; reflexivity|exact I].
  - reflexivity.
Qed.
Lemma pipe_midway p0 c0 W : forall ns r (o : outlet) w out, midway p0 c0 W r out -> let '(x, r', c, _) := pipe ns r o w in
  s_data (dr_src r') = s_data (dr_src r) /\ (exists u, s_sched (dr_src r) = u ++ s_sched (dr_src r')) /\ prefix (out ++ concat c) (fst (decoded cd c0 W)).
Proof.
  induction ns as [|n ns IH]; intros r o w out M; cbn [Piped.pipe].
  - split; [reflexivity|]. split; [now exists []|]. cbn [concat]. rewrite app_nil_r. exact (midway_prefix _ _ _ _ _ _ _ _ _ M).
  - pose proof (poll_midway cd D view inv OK p0 c0 W r out n M) as P. destruct (dr_poll_read n r) as [[|b|e] r1]; destruct P as (DA & (u & U) & P).
    + specialize (IH r1 o w out P). destruct (pipe ns r1 o w) as [[[x r2] c] w2]. destruct IH as (DB & (v & V) & PR).
      split; [congruence|]. split; [exists (u ++ v); rewrite <- app_assoc; congruence|exact PR].
    + destruct P as (_ & P & _). destruct b as [|y b].
      * split; [exact DA|]. split; [now exists u|]. cbn [concat]. rewrite app_nil_r in *. exact (midway_prefix _ _ _ _ _ _ _ _ _ P).
      * destruct (pour (y :: b) o w) as [[o'|z] w1].
        -- specialize (IH r1 o' w1 _ P). destruct (pipe ns r1 o' w1) as [[[x r2] c] w2]. destruct IH as (DB & (v & V) & PR).
           split; [congruence|]. split; [exists (u ++ v); rewrite <- app_assoc; congruence|]. cbn [concat]. now rewrite app_assoc.
        -- split; [exact DA|]. split; [now exists u|]. cbn [concat]. rewrite app_nil_r. exact (midway_prefix _ _ _ _ _ _ _ _ _ P).
    + split; [exact DA|]. split; [now exists u|]. cbn [concat]. rewrite app_nil_r. exact (midway_prefix _ _ _ _ _ _ _ _ _ M).
Qed.

(** ** The writer's side *)
Definition poured (c : list bytes) (o : outlet) (w : world) (x : outlet + option (res unit)) (w' : world) : Prop :=
  match o with
  | (sw, Some g) =>
    match x with
    | inl (sw', og) => exists g', og = Some g' /\ await_body E k (map SWriteAll c) sw g w = (Some (Ok (sw', g')), w')
    | inr (Some (Err e)) => await_body E k (map SWriteAll c) sw g w = (Some (Err e), w')
    | inr (Some (Panic p)) => await_body E k (map SWriteAll c) sw g w = (Some (Panic p), w')
    | inr None => await_body E k (map SWriteAll c) sw g w = (None, w')
    | inr (Some (Ok _)) => False
    end
  | (sw, None) =>
    match x with
    | inl (sw', og) => og = None /\ stream_body sw (map SWriteAll c) w = (Ok sw', w')
    | inr (Some (Err e)) => stream_body sw (map SWriteAll c) w = (Err e, w')
    | inr (Some (Panic p)) => stream_body sw (map SWriteAll c) w = (Panic p, w')
    | _ => False
    end
  end.
Lemma pour_nil o w : poured [] o w (inl o) w.
Proof. destruct o as [sw [g|]]; cbn; [now exists g|now split]. Qed.
Lemma pour_one b o w : let '(x, w') := pour b o w in match x with inl _ => True | inr _ => poured [b] o w x w' end.
Proof.
  destruct o as [sw [g|]]; unfold Piped.pour, poured; cbn [map await_body stream_body].
  - destruct (await_write E k b sw g w) as [[[[sw' g']|e|p]|] w']; reflexivity.
  - unfold bind. destruct (stream_write_all sw b w) as [[sw'|e|p] w']; reflexivity.
Qed.
Lemma pour_more b c o w o' w' x w'' : pour b o w = (inl o', w') -> poured c o' w' x w'' -> poured (b :: c) o w x w''.
Proof.
  destruct o as [sw [g|]]; unfold Piped.pour, poured; cbn [map await_body stream_body].
  - destruct (await_write E k b sw g w) as [[[[sw' g']|e|p]|] w1]; try discriminate. intro H. injection H as <- <-. exact (fun H => H).
  - unfold bind. destruct (stream_write_all sw b w) as [[sw'|e|p] w1]; try discriminate. intro H. injection H as <- <-. exact (fun H => H).
Qed.
Lemma pipe_writer : forall ns r (o : outlet) w, let '(x, _, c, w') := pipe ns r o w in
  match x with
  | Ended o' => poured c o w (inl o') w'
  | ReaderEnds _ => exists o', poured c o w (inl o') w'
  | WriterEnds y => poured c o w (inr y) w'
  end.
Proof.
  induction ns as [|n ns IH]; intros r o w; cbn [Piped.pipe]; [exists o; apply pour_nil|].
  destruct (dr_poll_read n r) as [[|b|e] r1]; [exact (IH r1 o w)| |exists o; apply pour_nil].
  destruct b as [|y b]; [apply pour_nil|]. pose proof (pour_one (y :: b) o w) as P1. destruct (pour (y :: b) o w) as [[o'|z] w1] eqn:EP; [|exact P1].
  specialize (IH r1 o' w1). destruct (pipe ns r1 o' w1) as [[[x r2] c] w2]. destruct x as [o2|q|q].
  - exact (pour_more _ _ _ _ _ _ _ _ EP IH).
  - destruct IH as (o2 & IH). exists o2. exact (pour_more _ _ _ _ _ _ _ _ EP IH).
  - exact (pour_more _ _ _ _ _ _ _ _ EP IH).
Qed.
(** an outlet that was opened, poured into and shut or dropped is the call of the stream *)
Definition outlet_of (sw : stream_writer cd) : outlet := (sw, match sw_enc sw with Some st => Some (eg_new E st) | None => None end).
Lemma poured_shut e c w sw w1 o w2 : stream_open cd false e w = (Ok sw, w1) -> poured c (outlet_of sw) w1 (inl o) w2 ->
  awaited_op cd E k (OpStream false e (map SWriteAll c) true) w = shut cd E k o w2 /\ awaited_op cd E k (OpStream false e (map SWriteAll c) false) w = (Some (Ok tt), w2).
Proof.
  intros O P. unfold awaited_op, run_op, bind. rewrite O. unfold outlet_of, poured in P. destruct o as [sw' og]. destruct (sw_enc sw) as [st|].
  - destruct P as (g' & -> & P). rewrite P. split; reflexivity.
  - destruct P as (-> & P). rewrite P. split; reflexivity.
Qed.
Lemma poured_failed e c w sw w1 y w2 : stream_open cd false e w = (Ok sw, w1) -> poured c (outlet_of sw) w1 (inr y) w2 ->
  (forall u, y <> Some (Ok u)) /\ awaited_op cd E k (OpStream false e (map SWriteAll c) false) w = (y, w2).
Proof.
  intros O P. unfold awaited_op, run_op, bind. rewrite O. unfold outlet_of, poured in P. destruct (sw_enc sw) as [st|].
  - destruct y as [[u|x|p]|]; [destruct P| | |]; rewrite P; split; try reflexivity; intro; discriminate.
  - destruct y as [[u|x|p]|]; [destruct P| | |destruct P]; rewrite P; split; try reflexivity; intro; discriminate.
Qed.
Lemma fed_map c : fed_bytes (map SWriteAll c) = concat c.
Proof. unfold fed_bytes. now rewrite map_map, map_id. Qed.

(** ** An entry that is carried *)
Lemma one_op o w : awaited_ops cd E k [o] w = let '(x, w') := awaited_op cd E k o w in ([(o, x)], w').
Proof. cbn [awaited_ops]. now destruct (awaited_op cd E k o w). Qed.
Lemma carry_ends f j h w : errand_good (Carry j) -> measured cd f (s_data (h_src h)) ->
  let '(x, l, h', w') := carry cd D E k f j h w in
  kept h h' /\ told_why cd f h j x /\ amounts_to cd f (s_data (h_src h)) j x l /\ awaited_ops cd E k (map fst l) w = (l, w') /\ Forall op_good (map fst l) /\ Forall (in_pieces cd f (s_data (h_src h)) j) (map fst l).
Proof.
  intros (EF & FN) MS. destruct j as [i n ns e0]. cbn [ca_entry ca_buffers] in EF, FN. unfold carry. cbn [ca_index ca_patience ca_buffers ca_entry].
  pose proof (sim_reader_at f i h n) as H. pose proof (harsh_entry cd f i n h) as HE. unfold h_read_entry in HE.
  destruct (h_reader_at f i n h) as [[[r|] n'] h1]; [|split; [exact (proj1 H)|]; split; [exact HE|]; split; [reflexivity|]; split; [reflexivity|split; constructor]].
  destruct H as (K & _ & H). destruct r as [[r e]|x|x].
  2: { split; [exact K|]. split; [|split; [reflexivity|split; [reflexivity|split; constructor]]]. cbn. destruct HE as [HE|[(c & I & HE)|[R HE]]]; [left; now symmetry|right; left; exists c; split; [exact I|now injection HE]|].
       right. right. split; [now injection R|exact HE]. }
  2: { split; [exact K|]. split; [|split; [reflexivity|split; [reflexivity|split; constructor]]]. cbn. destruct HE as [HE|[(c & I & HE)|[R HE]]]; [now symmetry|discriminate HE|discriminate R]. }
  destruct H as [H|[(c & p & _ & H)|[H _]]]; [|discriminate H|discriminate H]. clear HE.
  assert (GOOD : forall body closed, len (fed_bytes body) < 0x10000000000000000 -> op_good (OpStream false e0 body closed)) by (intros body closed L; now split).
  pose proof (opened_faults f i (h_src h)) as F. rewrite H in F.
  destruct (stream_open cd false e0 w) as [[sw|x|x] w1] eqn:SO.
  2,3: (split; [exact K|]; split; [exact I|]; split; [split; [intro; discriminate|exists [], true; reflexivity]|]; split; [rewrite (one_op (OpStream false e0 (map SWriteAll []) true)); unfold awaited_op, run_op, bind; rewrite SO; reflexivity|split; (constructor; [|constructor]); [now apply GOOD|exists [], true, e; split; [reflexivity|]; split; [exact F|]; eexists; reflexivity]]).
  change (sw, match sw_enc sw with Some st => Some (eg_new E st) | None => None end) with (outlet_of sw).
  pose proof (decoder_reads cd D view inv OK ns f i (h_src h) FN) as DR. pose proof (entry_settles cd D view inv OK LV ns f i (h_src h) FN) as ES.
  unfold d_read_entry in DR, ES. rewrite H in DR, ES. pose proof (MS i e F) as L.
  destruct (opened_at f i _ r e _ H) as (_ & -> & DS & PS). cbn [er_src er_comp er_limit er_new] in *.
  assert (A : region (s_data (h_src h)) e = ahead (h_src h1) (en_compressed_size (st_entry e))) by (rewrite region_take, ahead_take; congruence).
  set (c0 := en_compression (st_entry e)) in *. set (z := en_compressed_size (st_entry e)) in *.
  pose proof (pipe_reader ns (dr_new D (h_src h1) c0 z) (outlet_of sw) w1) as PR. pose proof (pipe_writer ns (dr_new D (h_src h1) c0 z) (outlet_of sw) w1) as PW.
  pose proof (pipe_midway _ c0 _ ns _ (outlet_of sw) w1 _ (midway_new cd D view inv OK (h_src h1) c0 z)) as PM.
  destruct (pipe ns (dr_new D (h_src h1) c0 z) (outlet_of sw) w1) as [[[x r'] c] w2]. destruct PM as (D1 & (u & U) & PX). cbn [dr_src dr_new app] in D1, U, PX.
  assert (K2 : kept h (with_src h1 (dr_src r'))).
  { eapply kept_trans; [exact K|]. split; [exact D1|]. split; [reflexivity|]. split; [now exists u|now exists []]. }
  assert (SZ : len (fed_bytes (map SWriteAll c)) < 0x10000000000000000).
  { rewrite fed_map. rewrite <- A in PX. apply prefix_length in PX. unfold len in *. lia. }
  assert (PI : forall closed, in_pieces cd f (s_data (h_src h)) {| ca_index := i; ca_patience := n; ca_buffers := ns; ca_entry := e0 |} (OpStream false e0 (map SWriteAll c) closed)).
  { intro closed. exists c, closed, e. split; [reflexivity|]. split; [exact F|]. fold c0. rewrite A. exact PX. }
  unfold dr_to_end_checked in DR, ES. destruct (dr_to_end ns (dr_new D (h_src h1) c0 z)) as [q r2] eqn:TE. cbn [fst] in PR.
  destruct x as [o|y|y].
  - injection PR as -> ->. destruct (poured_shut _ _ _ _ _ _ _ SO PW) as (W1 & W2). destruct (hasher_finalize (dr_hash r') =? en_crc32 (st_entry e)).
    + assert (Y : read_entry cd f i (cursor (s_data (h_src h))) = Ok (concat c)).
      { destruct DR as [Y|[(Y & _)|(kk & _ & Y)]]; [now symmetry|discriminate Y|discriminate Y]. }
      destruct (shut cd E k o w2) as [y w3] eqn:SH. split; [exact K2|].
      split; [destruct y as [[[]|y|y]|]; [now exists (concat c)|exact I..]|].
      split; [destruct y as [[[]|y|y]|]; [exists (concat c), (map SWriteAll c); split; [exact Y|]; split; [apply fed_map|reflexivity]|(split; [intro; discriminate|eexists _, _; reflexivity])..]|].
      split; [cbn [map fst]; rewrite one_op, W1; reflexivity|split; (constructor; [|constructor]); [now apply GOOD|apply PI]].
    + split; [exact K2|]. split; [|split; [eexists; reflexivity|split; [cbn [map fst]; rewrite one_op, W2; reflexivity|split; (constructor; [|constructor]); [now apply GOOD|apply PI]]]].
      cbn. destruct DR as [Y|[(Y & _)|(kk & _ & Y)]]; [now symmetry|discriminate Y|discriminate Y].
  - destruct PW as (o & PW). destruct (poured_shut _ _ _ _ _ _ _ SO PW) as (_ & W2). split; [exact K2|].
    split; [|split; [eexists; reflexivity|split; [cbn [map fst]; rewrite one_op, W2; reflexivity|split; (constructor; [|constructor]); [now apply GOOD|apply PI]]]].
    destruct y as [[y|y|y]|]; [destruct PR| |destruct PR|]; subst q; cbn.
    + destruct DR as [Y|[(Y & Y2)|(kk & IK & Y)]]; [left; now symmetry|right; right; split; [now injection Y|exact Y2]|].
      right. left. exists kk. split; [now left|now injection Y].
    + exists e. split; [exact F|]. fold c0. destruct (Nat.le_gt_cases (length ns) (delays (s_sched (h_src h)) + length (fst (decoded cd c0 (region (s_data (h_src h)) e))))) as [LE|GT]; [exact LE|].
      exfalso. destruct ES as (x & X & _); [|discriminate X]. intros r3 e3 s3 O. injection O as <- <- <-. fold c0. pose proof K as (_ & _ & (v & V) & _). rewrite V, delays_app in GT. lia.
  - destruct (poured_failed _ _ _ _ _ _ _ SO PW) as (NY & W2). split; [exact K2|].
    split; [destruct y as [[y|y|y]|]; [now elim (NY y)|exact I..]|].
    split; [split; [exact NY|eexists _, _; reflexivity]|split; [cbn [map fst]; rewrite one_op, W2; reflexivity|split; (constructor; [|constructor]); [now apply GOOD|apply PI]]].
Qed.

(** ** Sessions *)
Lemma told_why_kept f h h' j x : kept h h' -> told_why cd f h' j x -> told_why cd f h j x.
Proof.
  intros K. unfold told_why. pose proof K as (DA & _ & (v & V) & _). cbv zeta. rewrite DA. destruct x as [|[[[]|x|x]|]|[[[]|x|x]|]|[[[]|x|x]|]|]; try exact (fun H => H).
  - intros [H|[(c & I & H)|[R H]]]; [now left|right; left; exists c; split; [exact (kept_reports _ _ _ K I)|exact H]|right; right; split; [exact R|]].
    intro Ro. exact (H (kept_roomy _ _ K Ro)).
  - pose proof (kept_waits _ _ K). lia.
  - intros [H|[(c & I & H)|H]]; [now left|right; left; exists c; split; [exact (kept_reports _ _ _ K I)|exact H]|right; now right].
  - intros (e & O & L). exists e. split; [exact O|]. rewrite V, delays_app. lia.
Qed.
Lemma ops_app l1 : forall l2 w, awaited_ops cd E k (l1 ++ l2) w =
  let '(o1, w1) := awaited_ops cd E k l1 w in let '(o2, w2) := awaited_ops cd E k l2 w1 in (o1 ++ o2, w2).
Proof.
  induction l1 as [|o l1 IH]; intros l2 w; cbn [awaited_ops app].
  - now destruct (awaited_ops cd E k l2 w).
  - destruct (awaited_op cd E k o w) as [x w1]. rewrite IH. destruct (awaited_ops cd E k l1 w1) as [o1 w2]. now destruct (awaited_ops cd E k l2 w2).
Qed.
Lemma given_up_stream o w w' : awaited_op cd E k o w = (None, w') -> exists e body closed pre, o = OpStream pre e body closed.
Proof.
  destruct o; try (unfold awaited_op; match goal with |- context [run_op cd ?o w] => destruct (run_op cd o w) end; discriminate). intros _. now eexists _, _, _, _.
Qed.
Lemma errands_end f l : forall h w, Forall errand_good l -> measured cd f (s_data (h_src h)) ->
  let '(xs, outs, h', w') := errands cd D E k f l h w in
  kept h h' /\ Forall2 (errand_told cd f h) l xs /\ awaited_ops cd E k (map fst outs) w = (outs, w') /\ Forall op_good (map fst outs) /\
  exists parts, outs = concat parts /\ Forall2 (errand_amounts cd f (s_data (h_src h))) (List.combine l xs) parts /\
    Forall2 (fun x part => match x with Carry j => Forall (in_pieces cd f (s_data (h_src h)) j) (map fst part) | Call _ => True end) l parts.
Proof.
  induction l as [|[j|o] l IH]; intros h w G MS; cbn [errands].
  - split; [apply kept_refl|]. split; [constructor|]. split; [reflexivity|]. split; [constructor|]. exists []. split; [reflexivity|split; constructor].
  - apply Forall_cons_iff in G as [Gj G]. pose proof (carry_ends f j h w Gj MS) as C. destruct (carry cd D E k f j h w) as [[[x o] h1] w1]. destruct C as (K1 & T1 & A1 & O1 & G1 & P1).
    pose proof K1 as (DA & _). specialize (IH h1 w1 G ltac:(rewrite DA; exact MS)). destruct (errands cd D E k f l h1 w1) as [[[xs os] h2] w2].
    destruct IH as (K2 & T2 & O2 & G2 & parts & -> & A2 & P2). split; [exact (kept_trans _ _ _ K1 K2)|].
    split; [constructor; [exact T1|]; clear -K1 T2; induction T2 as [|a b la lb TT T2 IH]; constructor; [|exact IH]; destruct a, b; cbn in *; try exact TT; exact (told_why_kept _ _ _ _ _ K1 TT)|].
    split; [rewrite map_app, ops_app, O1, O2; reflexivity|]. split; [rewrite map_app; apply Forall_app; now split|].
    exists (o :: parts). split; [reflexivity|]. cbn [List.combine]. rewrite DA in A2, P2. split; (constructor; [|assumption]); [exact A1|exact P1].
  - apply Forall_cons_iff in G as [Go G]. destruct (awaited_op cd E k o w) as [x w1] eqn:O1. specialize (IH h w1 G MS). destruct (errands cd D E k f l h w1) as [[[xs os] h2] w2].
    destruct IH as (K2 & T2 & O2 & G2 & parts & -> & A2 & P2). split; [exact K2|]. split; [constructor; [exact I|exact T2]|].
    split; [cbn [map fst awaited_ops]; rewrite O1, O2; reflexivity|]. split; [constructor; [exact Go|exact G2]|].
    exists ([(o, x)] :: parts). split; [reflexivity|]. cbn [List.combine]. split; (constructor; [|assumption]); [|exact I]. split; [reflexivity|]. intros ->. exact (given_up_stream _ _ _ O1).
Qed.

(** ** Which entry an errand left *)
Lemma succeeded_app l1 : forall b l2, exists b', succeeded b (l1 ++ l2) = succeeded b l1 ++ succeeded b' l2.
Proof.
  induction l1 as [|[o r] l1 IH]; intros b l2; cbn [succeeded app]; [now exists b|]. destruct (IH (no_after b o) l2) as (b' & ->). exists b'. now rewrite app_assoc.
Qed.
Lemma part_gives f d x part b : errand_amounts cd f d x part -> length (succeeded b (map settled part)) = if gives x then 1%nat else 0%nat.
Proof.
  destruct x as [[j|o] [c|r]]; cbn [errand_amounts]; try contradiction.
  - destruct c as [|y|y|y|]; cbn [amounts_to gives].
    + intros (data & body & _ & _ & ->). reflexivity.
    + intros ->. reflexivity.
    + intros (body & ->). reflexivity.
    + intros (NY & body & closed & ->). destruct y as [[u|y|y]|]; [now elim (NY u)|cbn; now rewrite ?andb_false_r..].
    + intros (body & ->). reflexivity.
  - intros (-> & HN). cbn [map settled gives]. destruct r as [[[]|y|y]|]; cbn [succeeded worked]; rewrite ?andb_false_r, ?andb_true_r, app_nil_r; try reflexivity.
    + now destruct (writes_entry o).
    + destruct HN as (e & body & closed & pre & ->); reflexivity.
Qed.
Lemma placed_at f d l : forall xs parts b p j, Forall2 (errand_amounts cd f d) (List.combine l xs) parts -> nth_error l p = Some (Carry j) -> nth_error xs p = Some (CarryEnds Carried) ->
  exists data body no64, read_entry cd f (ca_index j) (cursor d) = Ok data /\ fed_bytes body = data /\
    nth_error (succeeded b (map settled (concat parts))) (place p l xs) = Some (no64, OpStream false (ca_entry j) body true).
Proof.
  induction l as [|a l IH]; intros xs parts b p j A NL NX; [destruct p; discriminate NL|]. destruct xs as [|x xs]; [destruct p; discriminate NX|].
  cbn [List.combine] in A. inversion A as [|? part ? ps A1 A2]; subst. cbn [concat]. rewrite map_app. destruct (succeeded_app (map settled part) b (map settled (concat ps))) as (b' & ->).
  destruct p as [|p]; cbn [nth_error] in NL, NX.
  - injection NL as ->. injection NX as ->. destruct A1 as (data & body & R & FB & ->). exists data, body, b. split; [exact R|]. split; [exact FB|reflexivity].
  - destruct (IH xs ps b' p j A2 NL NX) as (data & body & no64 & R & FB & NT). exists data, body, no64. split; [exact R|]. split; [exact FB|].
    unfold place in *. cbn [List.combine firstn filter]. pose proof (part_gives f d (a, x) part b A1) as PG. destruct (gives (a, x)); cbn [length]; rewrite nth_error_app2 by lia; rewrite PG.
    + replace (Datatypes.S (length (filter gives (firstn p (List.combine l xs)))) - 1)%nat with (length (filter gives (firstn p (List.combine l xs)))) by lia. exact NT.
    + rewrite Nat.sub_0_r. exact NT.
Qed.
Lemma placed_all f d l : forall parts b, Forall2 (errand_amounts cd f d) l parts -> length (succeeded b (map settled (concat parts))) = length (filter gives l).
Proof.
  induction l as [|a l IH]; intros parts b A; inversion A as [|? part ? ps A1 A2]; subst; [reflexivity|]. cbn [concat]. rewrite map_app.
  destruct (succeeded_app (map settled part) b (map settled (concat ps))) as (b' & ->). rewrite app_length, (part_gives f d a part b A1), (IH ps b' A2). cbn [filter]. now destruct (gives a).
Qed.
Lemma not_exchanged e body no64 : no64 = false -> forall it, leaves cd no64 (OpStream false e body true) it -> straight it.
Proof. intros -> it H. inversion H; subst; unfold straight, i_swapped; cbn; discriminate. Qed.

Lemma all_told f l h xs outs h' w w0 : Forall errand_good l -> measured cd f (s_data (h_src h)) -> errands cd D E k f l h w0 = (xs, outs, h', w) ->
  s_data (h_src h') = s_data (h_src h) /\ Forall2 (errand_told cd f h) l xs /\ awaited_ops cd E k (map fst outs) w0 = (outs, w).
Proof.
  intros G MS R. pose proof (errands_end f l h w0 G MS) as H. rewrite R in H. destruct H as (K & T & O & _). split; [exact (proj1 K)|]. now split.
Qed.
Lemma handy_good x : errand_handy x -> errand_good x.
Proof. destruct x as [j|o]; [intros (A & _ & _ & B); now split|]. intros (_ & H & _). exact H. Qed.
Lemma piece_patient sched c e closed (n : nat) : (length (concat c) <= n)%nat -> (SpecLively.waits sched + n < k)%nat -> SpecLively.patient k sched (OpStream false e (map SWriteAll c) closed).
Proof.
  intros L H. split; [|lia]. apply Forall_map. apply Forall_forall. intros b I. apply in_split in I as (a & z & ->). rewrite concat_app, app_length in L. cbn [concat] in L. rewrite app_length in L. lia.
Qed.
Lemma outs_handy f l d : Forall errand_handy l -> forall xs parts, Forall2 (errand_amounts cd f d) (List.combine l xs) parts ->
  Forall2 (fun x part => match x with Carry j => Forall (in_pieces cd f d j) (map fst part) | Call _ => True end) l parts ->
  Forall op_good (map fst (concat parts)) -> Forall handy (map fst (concat parts)).
Proof.
  intros G xs parts A P. revert xs A. induction P as [|x part l parts P1 P IH]; intros xs A GO; [constructor|]. apply Forall_cons_iff in G as [G1 G].
  destruct xs as [|y xs]; [inversion A|]. cbn [List.combine] in A. inversion A as [|? ? ? ? A1 A2]; subst.
  cbn [concat] in *. rewrite map_app in *. apply Forall_app in GO as [GO1 GO2]. apply Forall_app. split; [|exact (IH G xs A2 GO2)].
  destruct x as [j|o].
  - apply Forall_forall. intros o I. rewrite Forall_forall in P1, GO1. destruct (P1 o I) as (c & closed & e & -> & _). destruct G1 as (EF & ND & RM & _).
    split; [discriminate|]. split; [exact (GO1 _ I)|]. split; [exact ND|exact RM].
  - destruct y as [y|y]; [destruct A1|]. destruct A1 as (-> & _). constructor; [exact G1|constructor].
Qed.
Lemma readable f i d data : read_entry cd f i (cursor d) = Ok data -> exists e, opened_from f i d = Ok e /\ fst (decoded cd (en_compression (st_entry e)) (region d e)) = data.
Proof.
  intro R. destruct (opened_or cd f i (cursor d) data R) as [(r & e & s' & S & _ & DE)|(x & s' & S & (c & NIL & _))]; [|destruct NIL]; unfold opened_from; rewrite S; cbn [fst].
  exists e. split; [reflexivity|]. change (s_data (cursor d)) with d in DE. now rewrite DE.
Qed.
Lemma writers_blamed eview sched f l h xs outs h' w : enc_takes cd -> engine_ok cd E eview -> SpecLively.engine_lively cd E eview ->
  Forall errand_handy l -> measured cd f (s_data (h_src h)) -> errands cd D E k f l h (zw_new sched) = (xs, outs, h', w) ->
  Forall2 (writer_blamed cd k sched f (s_data (h_src h))) l xs.
Proof.
  intros ET EO EL G MS R. assert (G' : Forall errand_good l) by (eapply Forall_impl; [|exact G]; exact handy_good).
  pose proof (errands_end f l h (zw_new sched) G' MS) as H. rewrite R in H. destruct H as (_ & T & O & GO & parts & EQ & A & P). clear R.
  set (d := s_data (h_src h)) in *.
  assert (HA : Forall handy (map fst outs)) by (subst outs; exact (outs_handy f l _ G xs parts A P GO)).
  pose proof (BlameProofs.all_blamed cd E eview k ET EO EL (map fst outs) HA (zw_new sched) [] sched eq_refl eq_refl) as B. rewrite O in B. subst outs. clear O GO HA G G'.
  revert parts A P B. induction T as [|x y l xs TT T IH]; intros parts A P B; [constructor|]. inversion P as [|? part ? ps P1 P2]; subst. cbn [List.combine] in A. inversion A as [|? ? ? ? A1 A2]; subst.
  cbn [concat] in B. apply Forall_app in B as [B1 B2]. constructor; [|exact (IH ps A2 P2 B2)]. clear IH A A2 P P2 B2.
  destruct x as [j|o], y as [c|r]; try destruct TT; cbn [writer_blamed errand_amounts] in *.
  - destruct c as [|q|q|q|]; try exact I. destruct A1 as (NY & body & closed & ->). apply Forall_cons_iff in B1 as [B1 _]. apply Forall_cons_iff in P1 as [P1 _]. cbn [fst snd] in *.
    destruct q as [[u|q|q]|]; [now elim (NY u)|exact B1|exact B1|]. destruct P1 as (c & closed' & e & EC & OE & PX). injection EC as -> <-. exists e. split; [exact OE|].
    apply prefix_length in PX. cbn [ended_by] in B1. destruct (Nat.le_gt_cases k (SpecLively.waits sched + length (fst (decoded cd (en_compression (st_entry e)) (region d e))))) as [LE|GT]; [exact LE|].
    elim B1. eapply piece_patient; [|exact GT]. unfold len in PX. lia.
  - destruct A1 as (-> & _). apply Forall_cons_iff in B1 as [B1 _]. exact B1.
Qed.
Lemma all_carried eview sched f l h xs outs h' w : enc_takes cd -> engine_ok cd E eview -> SpecLively.engine_lively cd E eview ->
  Forall errand_handy l -> measured cd f (s_data (h_src h)) -> obliging sched -> (forall c, ~ reports h c) -> roomy h -> Forall (unhindered cd k sched f h) l ->
  errands cd D E k f l h (zw_new sched) = (xs, outs, h', w) -> xs = map well_ended l /\ fst (zw_close w) = Ok tt.
Proof.
  intros ET EO EL G MS OB NR RO UN R. assert (G' : Forall errand_good l) by (eapply Forall_impl; [|exact G]; exact handy_good).
  pose proof (errands_end f l h (zw_new sched) G' MS) as H. rewrite R in H. destruct H as (_ & T & O & GO & parts & EQ & A & P). clear R.
  assert (HA : Forall handy (map fst outs)) by (subst outs; exact (outs_handy f l _ G xs parts A P GO)).
  assert (PA : Forall (SpecLively.patient k sched) (map fst outs)).
  { subst outs. clear T O GO HA G G'. revert xs A. induction P as [|x part l parts P1 P IH]; intros xs A; [constructor|]. apply Forall_cons_iff in UN as [U1 UN].
    destruct xs as [|y xs]; [inversion A|]. cbn [List.combine] in A. inversion A as [|? ? ? ? A1 A2]; subst.
    cbn [concat]. rewrite map_app. apply Forall_app. split; [|exact (IH UN xs A2)]. destruct x as [j|o].
    - destruct U1 as ((data & RE & _ & U1) & _). destruct (readable _ _ _ _ RE) as (e & OE & DE). eapply Forall_impl; [|exact P1]. intros o (c & closed & e' & -> & OE' & PX).
      rewrite OE in OE'. injection OE' as <-. rewrite DE in PX. apply prefix_length in PX. eapply piece_patient; [|exact U1]. unfold len in PX. lia.
    - destruct y as [y|y]; [destruct A1|]. destruct A1 as (-> & _). constructor; [exact U1|constructor]. }
  destruct (all_awaited cd E eview k ET EO EL (map fst outs) HA (zw_new sched) PA eq_refl OB) as (w1 & AW & CH). rewrite O in AW. injection AW as EO1 <-.
  split.
  - assert (OO : Forall (fun x => snd x = Some (Ok tt)) outs) by (rewrite EO1; apply Forall_map; apply Forall_forall; reflexivity). clear EO1 CH HA PA O GO G G' OB. subst outs.
    revert parts A P OO. induction T as [|x y l xs TT T IH]; intros parts A P OO; [reflexivity|]. inversion P as [|? part ? ps P1 P2]; subst. cbn [List.combine] in A. inversion A as [|? ? ? ? A1 A2]; subst.
    cbn [concat] in OO. apply Forall_app in OO as [O1 O2]. apply Forall_cons_iff in UN as [U1 UN]. cbn [map]. f_equal; [|exact (IH UN ps A2 P2 O2)]. clear IH A A2 P P2 O2 UN P1 T.
    destruct x as [j|o], y as [c|r]; try destruct TT; cbn [well_ended errand_amounts errand_told] in *.
    + f_equal. destruct U1 as ((data & RE & U1 & _) & PT). unfold told_why in TT. rewrite RE in TT. destruct c as [|q|q|q|]; [reflexivity| | | |discriminate TT].
      * exfalso. destruct q as [[q|q|q]|]; [destruct TT| |discriminate TT|lia]. destruct TT as [TT|[(c & RC & _)|(_ & TT)]]; [discriminate TT|exact (NR c RC)|exact (TT RO data eq_refl)].
      * exfalso. destruct q as [[q|q|q]|]; [destruct TT| |destruct TT|]. { destruct TT as [TT|[(c & RC & _)|(_ & TT)]]; [discriminate TT|exact (NR c RC)|discriminate TT]. }
        destruct TT as (e & OE & LE). destruct (readable _ _ _ _ RE) as (e' & OE' & DE). rewrite OE in OE'. injection OE' as <-. rewrite DE in LE. lia.
      * destruct A1 as (NY & body & closed & ->). apply Forall_cons_iff in O1 as [O1 _]. now elim (NY tt).
    + destruct A1 as (-> & _). apply Forall_cons_iff in O1 as [O1 _]. cbn [snd] in O1. now subst.
  - apply close_works.
    + exact (ChainFacts.chain_short _ _ _ _ CH ltac:(constructor)).
    + rewrite (ChainFacts.chain_force _ _ _ _ CH), map_map. cbn [fst]. rewrite map_id. now apply handy_not_no.
    + destruct (ChainFacts.chain_evol _ _ _ _ CH) as (_ & _ & _ & (u & U)). change (WriterFacts.w_sched (zw_new sched)) with sched in U. rewrite U in OB. now apply obliging_app in OB.
Qed.
Lemma carried_back eview D2 view2 inv2 cfg sched f l h xs outs h' w w' : codec_ok cd -> engine_ok cd E eview -> decoder_ok cd D2 view2 inv2 -> decoder_lively D2 ->
  Forall errand_good l -> measured cd f (s_data (h_src h)) -> errands cd D E k f l h (zw_new sched) = (xs, outs, h', w) -> zw_close w = (Ok tt, w') ->
  made cd (map settled outs) (w_bytes w) (w_zip64 w') (w_bytes w') /\
  (unambiguous cd cfg (map fst (map settled outs)) (map settled outs) (w_zip64 w') (w_bytes w') ->
   exists f2, mem_new cfg (w_bytes w') = Ok {| m_data := w_bytes w'; m_file := f2 |} /\ length (f_entries f2) = place (length l) l xs /\
   forall p j, nth_error l p = Some (Carry j) -> nth_error xs p = Some (CarryEnds Carried) ->
   exists data body no64 st it, read_entry cd f (ca_index j) (cursor (s_data (h_src h))) = Ok data /\ fed_bytes body = data /\
     nth_error (f_entries f2) (place p l xs) = Some st /\ leaves cd no64 (OpStream false (ca_entry j) body true) it /\ as_written (w_bytes w') it st /\ texts_kept it st /\
     (no64 = false \/ (forall it, leaves cd no64 (OpStream false (ca_entry j) body true) it -> straight it) ->
      forall ns s, s_data s = w_bytes w' -> Forall (fun n => 0 < n) ns -> (delays (s_sched s) + length data < length ns)%nat ->
      d_read_entry D2 ns f2 (N.of_nat (place p l xs)) s = Some (Ok data) \/
      exists c, In (RFail c) (s_sched s) /\ d_read_entry D2 ns f2 (N.of_nat (place p l xs)) s = Some (Err (UpstreamReadError (IoOther c))))).
Proof.
  intros CK EO OK2 LV2 G MS R C. pose proof (errands_end f l h (zw_new sched) G MS) as H. rewrite R in H. destruct H as (_ & T & O & GO & parts & EQ & A & _).
  pose proof (by_awaits cd E eview k sched (map fst outs) outs w w' EO GO O C) as M. split; [exact M|]. intro U.
  destruct (made_back cd cfg (cursor (w_bytes w')) _ _ _ _ CK M U eq_refl (Forall_nil _)) as (f2 & _ & MN & _ & _ & FE & RD). exists f2. split; [exact MN|].
  split.
  { replace (length (f_entries f2)) with (length (succeeded false (map settled outs))) by (clear -FE; induction FE; cbn [length]; congruence). rewrite EQ, (placed_all f _ _ parts false A). unfold place. pose proof (combine_length l xs) as CL. rewrite firstn_all2 by lia. reflexivity. }
  intros p j NL NX. destruct (placed_at f _ l xs parts false p j A NL NX) as (data & body & no64 & RE & FB & NT). rewrite <- EQ in NT.
  assert (X : exists st, nth_error (f_entries f2) (place p l xs) = Some st /\ exists it, leaves cd no64 (OpStream false (ca_entry j) body true) it /\ as_written (w_bytes w') it st /\ texts_kept it st).
  { clear -FE NT. revert NT. generalize (place p l xs) as m. induction FE as [|x st la lb (it & LI & AW & TK) FE IH]; intros m NT; [destruct m; discriminate NT|].
    destruct m as [|m]; [injection NT as ->; exists st; split; [reflexivity|]; now exists it|exact (IH m NT)]. }
  destruct X as (st & NS & it & LI & AW & TK). exists data, body, no64, st, it. repeat (split; [assumption|]). intros ST ns s SD FN L.
  assert (ST2 : forall it, leaves cd no64 (OpStream false (ca_entry j) body true) it -> straight it) by (destruct ST as [Z|Z]; [now apply not_exchanged|exact Z]).
  destruct (RD (N.of_nat (place p l xs)) no64 _ data ltac:(rewrite Nat2N.id; exact NT) ltac:(rewrite <- FB; constructor) ST2) as (RD1 & _).
  rewrite <- SD in RD1. exact (entry_or cd D2 view2 inv2 OK2 LV2 ns f2 (N.of_nat (place p l xs)) s data FN RD1 L).
Qed.
End Piped.
