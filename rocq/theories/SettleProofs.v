(** Copies of copies. *)
From Verif Require Import Base BaseFacts Crc32 CrcFacts Utf8 Utf8Facts ZString ZDate Headers ExtraField Entry IO IOFacts Reader EntryReader Writer OpenFacts TameFacts
  SpecFormat SpecCrc SpecUtf8 SpecArchive SpecRead SpecWrite SpecCopy WriteProofs RecordFacts CloseFacts RoundTrip TextFacts ArchiveProofs Zip64Proofs CopyProofs
  SpecExact ExactProofs SpecSettle.
Arguments N.add : simpl never.
Arguments N.sub : simpl never.

(** ** Whole entries as precompressed ones *)
Definition packed (cd : codec) (e : zentry) (data : bytes) : res bytes :=
  match en_compression e with Stored => Ok data | c => compress cd c (en_level e) data end.
Definition pack (cd : codec) (e : zentry) (data : bytes) : bytes := match packed cd e data with Ok z => z | _ => [] end.
Definition sized (e : zentry) (data : bytes) : zentry := set_crc32 (set_uncompressed_size e (len data)) (crc32 data).
Definition pre_of (cd : codec) (x : zentry * bytes) : wop := OpWholePre (sized (fst x) (snd x)) (pack cd (fst x) (snd x)).
Lemma op_pre cd x w : worked (fst (run_op cd (OpWhole (fst x) (snd x)) w)) = true ->
  run_op cd (OpWhole (fst x) (snd x)) w = run_op cd (pre_of cd x) w.
Proof.
  destruct x as [e data]. unfold pre_of, pack, packed, sized. cbn [fst snd run_op]. unfold write_entry_whole, write_entry_whole_precompressed.
  cbn [en_compression en_level set_crc32 set_uncompressed_size].
  destruct (en_compression e); try reflexivity; unfold bind, lift; destruct (compress _ _ _ _); cbn; try discriminate; reflexivity.
Qed.
Lemma ops_pre cd es : forall w, Forall (fun x => worked (snd x) = true) (fst (run_ops cd (copy_ops es) w)) ->
  snd (run_ops cd (map (pre_of cd) es) w) = snd (run_ops cd (copy_ops es) w) /\
  Forall (fun x => worked (snd x) = true) (fst (run_ops cd (map (pre_of cd) es) w)).
Proof.
  induction es as [|x es IH]; intros w F; [now split|]. unfold copy_ops in *. cbn [map run_ops] in *.
  pose proof (op_pre cd x w) as E. destruct (run_op cd (OpWhole (fst x) (snd x)) w) as [r w'] eqn:R. cbn [fst] in E.
  destruct (run_ops cd (map _ es) w') as [xs w''] eqn:Q in F. cbn [fst] in F. inversion F as [|? ? W F']; subst. cbn [snd] in W.
  rewrite <- (E W). specialize (IH w'). rewrite Q in IH. cbn [fst snd] in IH. destruct (IH F') as [A B].
  rewrite Q. destruct (run_ops cd (map (pre_of cd) es) w') as [ys v]. cbn [fst snd] in *. split; [exact A|]. now constructor.
Qed.
Lemma archive_pre cd sched es : let '(xs, r, w) := run_archive cd sched (copy_ops es) in
  Forall (fun x => worked (snd x) = true) xs ->
  exists ys, run_archive cd sched (map (pre_of cd) es) = (ys, r, w) /\ Forall (fun x => worked (snd x) = true) ys.
Proof.
  unfold run_archive. pose proof (ops_pre cd es (zw_new sched)) as H. destruct (run_ops cd (copy_ops es) _) as [xs w]. destruct (zw_close w) as [r w'] eqn:C.
  cbn [fst snd] in H. intro F. destruct (H F) as [A B]. destruct (run_ops cd (map _ es) _) as [ys v]. cbn [fst snd] in *. subst v. rewrite C. now exists ys.
Qed.
Lemma pre_worked cd es : forall xs, map fst xs = map (pre_of cd) es -> Forall (fun x : wop * res unit => worked (snd x) = true) xs ->
  succeeded false xs = map (fun x => (false, pre_of cd x)) es.
Proof.
  induction es as [|[e data] es IH]; intros [|[o r] xs] E W; cbn in E; try discriminate; [easy|].
  injection E as -> E. inversion W; subst. unfold pre_of at 1. cbn [succeeded writes_entry andb no_after fst snd map] in *. rewrite H1. cbn [app]. f_equal. now apply IH.
Qed.
Lemma pre_comment cd es : last_comment (map (pre_of cd) es) = [].
Proof. unfold last_comment. assert (H : forall c, fold_left comment_after (map (pre_of cd) es) c = c) by (induction es; intro c; [easy|apply IHes]). now rewrite H. Qed.
Lemma pre_good cd es : Forall copyable es -> Forall op_good (map (pre_of cd) es).
Proof.
  induction 1 as [|[e data] es ((WT & PF) & L & _) _ IH]; constructor; [|exact IH]. cbn [fst snd] in *. split; [|exact I].
  destruct WT as (X1 & X2 & X3 & X4 & X5 & X6 & X7). unfold op_fine, pre_of, sized. cbn. split; [|exact PF]. unfold entry_wt. cbn.
  repeat (split; [first [assumption | apply crc32_bound | lia]|]). assumption.
Qed.

(** ** One copy of one entry *)
Record copy_step1 (cd : codec) (e : zentry) (data : bytes) (e' : zentry) (f : bool) (lx : list extra_field) : Prop := {
  cs_texts : texts (en_filename e) (en_comment e) f (en_extra e) lx;
  cs_name : reads_as XPath f lx (stored_bytes (en_filename e)) (en_filename e');
  cs_comment : reads_as XComment f lx (stored_bytes (en_comment e)) (en_comment e');
  cs_extra : en_extra e' = heard lx;
  cs_compression : en_compression e' = en_compression e;
  cs_level : en_level e' = LDefault;
  cs_crc : en_crc32 e' = crc32 data;
  cs_usize : en_uncompressed_size e' = len data;
  cs_csize : en_compressed_size e' = len (pack cd e data);
  cs_compat : en_attr_compat e' = Unix;
  cs_date : en_date e' = en_date e;
  cs_iattr : en_iattr e' = en_iattr e;
  cs_eattr : en_eattr e' = en_eattr e;
  cs_dd : en_data_descriptor e' = false }.
Definition step (cd : codec) (x y : zentry * bytes) : Prop := snd y = snd x /\ exists f lx, copy_step1 cd (fst x) (snd x) (fst y) f lx.

Lemma entry_step cd d e data it a v f lx st : leaves cd false (pre_of cd (e, data)) it -> laid_out it a v f lx -> sits d it v f lx ->
  reported a st -> en_level (st_entry st) = LDefault -> len data <= 0xFFFFFFFF -> len d <= 0xFFFFFFFF -> step cd (e, data) (st_entry st, data).
Proof.
  intros L LO SI RP LV LD LEN. split; [easy|]. cbn [fst snd].
  destruct SI as (before & after & E & OFF). assert (LL := f_equal len E). rewrite !len_app in LL.
  assert (I : i_stream it = false /\ i_entry it = sized e data /\ i_usize it = len data /\ i_crc it = crc32 data /\ i_data it = pack cd e data).
  { unfold pre_of in L. cbn [fst snd] in L. remember (OpWholePre (sized e data) (pack cd e data)) as o eqn:O. destruct L; try discriminate. injection O as -> ->. cbn. auto. }
  destruct I as (I1 & I2 & I3 & I4 & I5).
  destruct (copy_extras it a v f lx LO I1) as [LZ AX]; try lia; try (unfold i_csize; lia).
  pose proof (lo_local _ _ _ _ _ LO) as T. rewrite LZ, app_nil_r, I2 in T. unfold sized in T. cbn in T.
  destruct RP as (R1 & R2 & R3 & R4 & R5 & R6 & R7 & R8 & R9 & R10 & R11 & R12 & R13 & R14).
  rewrite (lo_flags _ _ _ _ _ LO), flag_word_11, AX, (lo_name _ _ _ _ _ LO) in R1.
  rewrite (lo_flags _ _ _ _ _ LO), flag_word_11, AX, (lo_comment _ _ _ _ _ LO) in R2.
  unfold i_name in *. unfold i_comment in *. rewrite I2 in R1, R2. unfold sized in R1, R2. cbn in R1, R2. rewrite AX in R11.
  exists f, lx. constructor; try assumption.
  - now rewrite R3, (lo_method _ _ _ _ _ LO), I2.
  - now rewrite R4, (lo_crc _ _ _ _ _ LO), I4.
  - rewrite R5, (lo_usize _ _ _ _ _ LO). unfold put_usize, i_swapped. now rewrite I1, I3.
  - rewrite R6, (lo_csize _ _ _ _ _ LO). unfold put_csize, i_swapped, i_csize. now rewrite I1, I5.
  - rewrite R7, (lo_date _ _ _ _ _ LO), (lo_time _ _ _ _ _ LO), I2. unfold sized. cbn. now destruct (en_date e).
  - now rewrite R8, (lo_iattr _ _ _ _ _ LO), I2.
  - now rewrite R9, (lo_eattr _ _ _ _ _ LO), I2.
  - rewrite R12, (lo_flags _ _ _ _ _ LO), I1. now destruct f.
Qed.
Lemma levels cfg d f : mem_new cfg d = Ok {| m_data := d; m_file := f |} -> Forall (fun st => en_level (st_entry st) = LDefault) (f_entries f).
Proof.
  unfold mem_new. fold (cursor d). destruct (file cfg (cursor d)) as [[g| |] s] eqn:E; cbn; try discriminate. intro H. injection H as ->.
  apply (f_equal fst) in E. cbn [fst] in E.
  destruct (file_reads cfg _ f E) as (x & rs & _ & F & _). clear -F. induction F as [|r st rs l T _ IH]; constructor; [|exact IH]. apply T.
Qed.
Lemma generation cd cfg es es' : codec_ok cd -> Forall copyable es -> copied cd cfg es es' -> Forall2 (step cd) es es'.
Proof.
  intros K G (sched & C). pose proof (copy_step cd cfg sched es K G) as ST. pose proof (archive_pre cd sched es) as AP.
  destruct (run_archive cd sched (copy_ops es)) as [[xs r] w] eqn:RA. destruct C as (R & W & M & T).
  destruct (ST R W M) as (es1 & T1 & CO & _). rewrite (taken_det _ _ _ _ _ T1 T) in CO. clear ST T1 es1.
  destruct (AP W) as (ys & RP & WY). clear AP.
  pose proof (round_trip_full cd cfg sched) as H. specialize (fun s => H s _ K (pre_good cd es G)).
  assert (MF : map fst (fst (fst (run_archive cd sched (map (pre_of cd) es)))) = map (pre_of cd) es).
  { unfold run_archive. pose proof (run_ops_map cd (map (pre_of cd) es) (zw_new sched)) as MM. destruct (run_ops _ _ _) as [zs v]. now destruct (zw_close v). }
  rewrite RP in H, MF. cbn [fst] in MF. destruct M as (LD & EC & MEM). pose proof (pre_worked cd es ys MF WY) as S. rewrite S, pre_comment in H.
  destruct (H (cursor (w_bytes w)) R ltac:(lia)) as (f & F & MN & Z & CM & F2 & _); clear H.
  - intros _. eapply Forall_impl; [|exact WY]. cbn. intros [o x] X. cbn in *. now destruct x.
  - now left.
  - exact EC.
  - reflexivity.
  - constructor.
  - unfold len. rewrite map_length. exact MEM.
  - destruct T as (f' & MN' & ME & _). rewrite MN in MN'. injection MN' as <-. pose proof (levels _ _ _ MN) as LV.
    clear -F2 LV ME CO G LD. revert es' ME CO. revert F2 LV. generalize (f_entries f). induction es as [|[e data] es IH]; intros l F2 LV es' ME CO; cbn [map] in F2;
      inversion F2 as [|? st ? l' H1 H2]; subst; inversion CO as [|? y ? es1 C1 C2]; subst; constructor.
    + destruct H1 as (it & a & v & g & lx & L1 & LO & SI & R1 & _). cbn [fst snd] in L1. inversion LV; subst. inversion G as [|? ? G1 ?]; subst.
      destruct C1 as (C1 & _). cbn in C1. destruct y as [y d']. cbn in C1, ME. injection ME as <- _. subst d'.
      apply (entry_step cd (w_bytes w) e data it a v g lx st); auto. apply G1.
    + inversion G; subst. inversion LV; subst. cbn in ME. injection ME as _ ME. now apply (IH H4 l').
Qed.

(** ** Texts *)
Section Kind.
Variables (mk : unicode_field -> extra_field) (pr : extra_field -> list unicode_field).
Hypothesis K : kind mk pr.
Notation view := (view pr).
(** writing the string changes nothing in fields of this view *)
Definition still (s : zstring) (v : list unicode_field) : Prop :=
  zs_enc s <> EUtf8 \/ zs_raw s = [] \/ (exists b, v = UV1 (crc32_spec (stored_bytes s)) (zs_raw s) :: b) \/ (exists k d b, v = UUnknown k d :: b).
Lemma still_same s xs ys : still s (view xs) -> spelled mk s xs ys -> ys = xs.
Proof.
  intros ST SP. destruct SP as [xs ys E NE T|xs _]; [|reflexivity].
  destruct ST as [ST|[ST|[(b & V)|(k & d & b & V)]]]; try contradiction.
  - destruct T as [xs NO|a crc old b0 NO|a v d b0 NO]; [|f_equal; f_equal; f_equal|reflexivity].
    + apply (view_none _ _ K) in NO. congruence.
    + rewrite view_app, (view_cons_mk _ _ K) in V. apply (view_none _ _ K) in NO. rewrite NO in V. cbn in V. congruence.
  - destruct T as [xs NO|a crc old b0 NO|a k' d' b0 NO]; [| |reflexivity].
    + apply (view_none _ _ K) in NO. congruence.
    + rewrite view_app, (view_cons_mk _ _ K) in V. apply (view_none _ _ K) in NO. rewrite NO in V. cbn in V. congruence.
Qed.
(** once written and read, the string is still *)
Lemma becomes_still s xs ys z : reads_view false (view xs) (stored_bytes s) s -> sound_string s -> spelled mk s xs ys ->
  reads_view false (view ys) (stored_bytes s) z -> still z (view ys).
Proof.
  intros RS SO SP R.
  assert (G : forall b, zs_enc s = EUtf8 -> view ys = UV1 (crc32_spec (stored_bytes s)) (zs_raw s) :: b -> still z (view ys)).
  { intros b E V. rewrite V in *. apply first_read in R; [|now apply SO]. subst z. right. right. left. now exists b. }
  destruct SP as [xs ys E NE T|xs NT].
  - destruct T as [xs NO|a crc old b NO|a k d b NO].
    + apply (G []); [exact E|]. rewrite view_app. apply (view_none _ _ K) in NO. now rewrite NO, (view_mk _ _ K).
    + apply (G (view b)); [exact E|]. rewrite view_app, (view_cons_mk _ _ K). apply (view_none _ _ K) in NO. now rewrite NO.
    + right. right. right. exists k, d, (view b). rewrite view_app, (view_cons_mk _ _ K). apply (view_none _ _ K) in NO. now rewrite NO.
  - rewrite <- (reads_view_det _ _ _ _ RS R). destruct NT as [NT|NT]; [now left|right; now left].
Qed.
End Kind.

(** ** The states an entry goes through *)
Definition plain_both (e : zentry) : Prop := plain_text (en_filename e) /\ plain_text (en_comment e).
Definition sound_both (e : zentry) : Prop := sound_string (en_filename e) /\ sound_string (en_comment e).
Definition read_both (e : zentry) : Prop :=
  reads_view false (view pr_path (en_extra e)) (stored_bytes (en_filename e)) (en_filename e) /\
  reads_view false (view pr_comment (en_extra e)) (stored_bytes (en_comment e)) (en_comment e).
Definition still_both (e : zentry) : Prop := still (en_filename e) (view pr_path (en_extra e)) /\ still (en_comment e) (view pr_comment (en_extra e)).
Definition once (e : zentry) : Prop := en_level e = LDefault /\ sound_both e /\ (plain_both e \/ read_both e).
Definition twice (cd : codec) (e : zentry) (data : bytes) : Prop :=
  en_level e = LDefault /\ sound_both e /\ (plain_both e \/ read_both e /\ still_both e) /\ en_crc32 e = crc32 data /\ en_uncompressed_size e = len data /\
  en_compressed_size e = len (pack cd e data) /\ en_attr_compat e = Unix /\ en_data_descriptor e = false.

Lemma stored_read mk flag xs basic z : reads_as mk flag xs basic z -> stored_bytes z = basic.
Proof. now destruct 1. Qed.
Lemma flag_plain mk xs s t : plain_text s -> sound_string s -> reads_as mk true xs (stored_bytes s) t -> t = s.
Proof.
  intros [P1 P2] S R. assert (SB : stored_bytes s = zs_raw s) by (unfold stored_bytes; now rewrite P2). rewrite SB in R.
  destruct R as [_ U|_ U| | |]; try discriminate; [|elim U; now apply S]. destruct s as [enc raw alt]. cbn in *. now subst.
Qed.
Lemma pack_same cd e e' data : en_compression e' = en_compression e -> en_level e' = en_level e -> pack cd e' data = pack cd e data.
Proof. unfold pack, packed. now intros -> ->. Qed.

(** after any copy *)
Lemma step_once cd e data e' f lx : sound_both e -> copy_step1 cd e data e' f lx -> once e'.
Proof.
  intros [S1 S2] C. pose proof (cs_name _ _ _ _ _ _ C) as R1. pose proof (cs_comment _ _ _ _ _ _ C) as R2. split; [apply C|].
  split; [split; eapply reads_sound; eassumption|]. destruct (cs_texts _ _ _ _ _ _ C) as [xs P1 P2|xs ys zs NP SP1 SP2].
  - left. pose proof (flag_plain _ _ _ _ P1 S1 R1) as E1. pose proof (flag_plain _ _ _ _ P2 S2 R2) as E2. unfold plain_both. now rewrite E1, E2.
  - right. unfold read_both. rewrite (cs_extra _ _ _ _ _ _ C), (heard_view pr_path zs empty_path), (heard_view pr_comment zs empty_comment).
    rewrite (stored_read _ _ _ _ _ R1), (stored_read _ _ _ _ _ R2). split; [now apply (reads_as_view _ _ kind_path)|now apply (reads_as_view _ _ kind_comment)].
Qed.
(** after another *)
Lemma step_twice cd e data e' f lx : once e -> copy_step1 cd e data e' f lx -> twice cd e' data.
Proof.
  intros (LV & S & PR) C. pose proof (step_once _ _ _ _ _ _ S C) as (LV' & S' & PR'). destruct S as [S1 S2].
  split; [exact LV'|]. split; [exact S'|]. split; [|repeat (split; [apply C|])].
  - pose proof (cs_name _ _ _ _ _ _ C) as R1. pose proof (cs_comment _ _ _ _ _ _ C) as R2.
    pose proof (cs_extra _ _ _ _ _ _ C) as X. destruct PR' as [P'|RB]; [now left|]. unfold read_both in PR. remember (en_extra e) as xs0 eqn:EX in PR. pose proof (cs_texts _ _ _ _ _ _ C) as TX. rewrite <- EX in TX.
    destruct TX as [xs P1 P2|xs ys zs NP SP1 SP2].
    + left. pose proof (flag_plain _ _ _ _ P1 S1 R1) as E1. pose proof (flag_plain _ _ _ _ P2 S2 R2) as E2. unfold plain_both. now rewrite E1, E2.
    + right. split; [exact RB|]. destruct PR as [P|[Q1 Q2]]; [contradiction|].
      assert (V1 : view pr_path zs = view pr_path ys) by (apply (spelled_other pr_path XComment (en_comment e)); easy).
      assert (V2 : view pr_comment ys = view pr_comment xs) by (apply (spelled_other pr_comment XPath (en_filename e)); easy).
      unfold still_both. rewrite X, (heard_view pr_path zs empty_path), (heard_view pr_comment zs empty_comment).
      apply (reads_as_view _ _ kind_path) in R1. apply (reads_as_view _ _ kind_comment) in R2. split.
      * rewrite V1 in *. now apply (becomes_still _ _ kind_path (en_filename e) xs ys).
      * apply (becomes_still _ _ kind_comment (en_comment e) ys zs); try assumption. now rewrite V2.
  - split; [|split; apply C]. rewrite (cs_csize _ _ _ _ _ _ C). f_equal. symmetry. apply pack_same; [apply C|]. now rewrite LV, LV'.
Qed.
(** and from then on only empty last fields go *)
Lemma step_more cd e data e' f lx : twice cd e data -> copy_step1 cd e data e' f lx -> e' = set_extra e (heard (en_extra e)).
Proof.
  intros (LV & (S1 & S2) & PR & X1 & X2 & X3 & X4 & X5) C.
  pose proof (cs_name _ _ _ _ _ _ C) as R1. pose proof (cs_comment _ _ _ _ _ _ C) as R2.
  assert (G : lx = en_extra e /\ en_filename e' = en_filename e /\ en_comment e' = en_comment e).
  { unfold read_both, still_both in PR. pose proof (cs_texts _ _ _ _ _ _ C) as TX. remember (en_extra e) as xs0 eqn:EX in PR, TX |- *. destruct TX as [xs P1 P2|xs ys zs NP SP1 SP2].
    - split; [reflexivity|]. split; eapply flag_plain; eassumption.
    - destruct PR as [P|[[Q1 Q2] [T1 T2]]]; [contradiction|].
      pose proof (still_same _ _ kind_path _ _ _ T1 SP1) as ->. pose proof (still_same _ _ kind_comment _ _ _ T2 SP2) as ->.
      split; [reflexivity|]. apply (reads_as_view _ _ kind_path) in R1. apply (reads_as_view _ _ kind_comment) in R2.
      split; symmetry; eapply reads_view_det; eassumption. }
  destruct G as (-> & G2 & G3). destruct e' as [n c lv cr us cs ac dt ia ea ex cm dd], e as [n0 c0 lv0 cr0 us0 cs0 ac0 dt0 ia0 ea0 ex0 cm0 dd0].
  destruct C as [C1 C2 C3 C4 C5 C6 C7 C8 C9 C10 C11 C12 C13 C14]. cbn in *. unfold set_extra. cbn. congruence.
Qed.

(** ** Empty fields at the end *)
Lemma empties_mid p y q : spec_payload y <> [] -> empties (p ++ y :: q) = empties p.
Proof. intro Y. induction p as [|x p IH]; cbn; [now destruct (spec_payload y)|]. now rewrite IH. Qed.
Lemma told_trailing mk basic text xs ys : (forall crc t, spec_payload (mk (UV1 crc t)) <> []) -> told mk basic text xs ys ->
  (empties (rev ys) <= empties (rev xs))%nat.
Proof.
  intros P. destruct 1 as [xs _|a crc old b _|a v d b _]; [| |lia].
  - rewrite rev_app_distr. cbn [rev app empties]. specialize (P (crc32_spec basic) text). destruct (spec_payload _); [contradiction|lia].
  - rewrite !rev_app_distr. cbn [rev]. rewrite <- !app_assoc. cbn [app]. rewrite !empties_mid by apply P. lia.
Qed.
Lemma texts_trailing n c f xs ys : texts n c f xs ys -> (empties (rev ys) <= empties (rev xs))%nat.
Proof.
  destruct 1 as [xs _ _|xs ys zs _ S1 S2]; [lia|].
  assert (A : (empties (rev ys) <= empties (rev xs))%nat) by (destruct S1 as [? ? _ _ T|]; [|lia]; apply (told_trailing XPath _ _ _ _) in T; [exact T|easy]).
  assert (B : (empties (rev zs) <= empties (rev ys))%nat) by (destruct S2 as [? ? _ _ T|]; [|lia]; apply (told_trailing XComment _ _ _ _) in T; [exact T|easy]).
  lia.
Qed.
Lemma heard_trailing l : empties (rev (heard l)) = pred (empties (rev l)).
Proof.
  unfold heard. destruct (rev l) as [|x r] eqn:E; [reflexivity|]. cbn [empties]. destruct (spec_payload x) eqn:P; [now rewrite rev_involutive|].
  rewrite E. cbn [empties]. now rewrite P.
Qed.
Lemma heard_all l : empties (rev l) = 0%nat -> heard l = l.
Proof.
  unfold heard. destruct (rev l) as [|x r] eqn:E; cbn [empties].
  - intros _. apply (f_equal (@rev _)) in E. now rewrite rev_involutive in E.
  - now destruct (spec_payload x).
Qed.

(** ** Generations *)
Definition stage (cd : codec) (k : nat) (x : zentry * bytes) : Prop :=
  match k with O => sound_both (fst x) | S O => once (fst x) | _ => twice cd (fst x) (snd x) end.
Lemma step_stage cd k x y : stage cd k x -> step cd x y -> stage cd (S k) y.
Proof.
  intros ST (E & f & lx & C). destruct k as [|[|k]]; cbn in *.
  - now apply (step_once _ _ _ _ _ _ ST C).
  - rewrite E. now apply (step_twice _ _ _ _ _ _ ST C).
  - rewrite E. apply (step_twice cd (fst x) (snd x) (fst y) f lx); [|exact C].
    destruct ST as (A & B & [P|[Q _]] & _); (split; [exact A|]); (split; [exact B|]); auto.
Qed.
Lemma step_trailing cd x y : step cd x y -> (trailing y <= pred (trailing x))%nat.
Proof.
  intros (E & f & lx & C). unfold trailing. rewrite (cs_extra _ _ _ _ _ _ C), heard_trailing. pose proof (texts_trailing _ _ _ _ _ (cs_texts _ _ _ _ _ _ C)). lia.
Qed.
Lemma stages cd cfg n es es' : codec_ok cd -> Forall copyable es -> copies cd cfg n es es' -> forall k, Forall (stage cd k) es ->
  Forall (stage cd (n + k)) es' /\ Forall2 (fun x y => (trailing y <= trailing x - n)%nat) es es'.
Proof.
  intros K G C. induction C as [es|n es es1 es2 C1 _ IH]; intros k ST.
  - split; [exact ST|]. clear. induction es; constructor; [lia|assumption].
  - pose proof (generation cd cfg es es1 K G C1) as F. assert (G1 : Forall copyable es1).
    { destruct (generations cd cfg 1 es es1 K G) as [_ H]; [|exact H]. eapply copies_more; [exact C1|apply copies_none]. }
    assert (ST1 : Forall (stage cd (S k)) es1).
    { clear -F ST. induction F as [|x y es es1 X _ IH]; constructor; inversion ST; subst; [now apply (step_stage cd k x)|auto]. }
    destruct (IH G1 (S k) ST1) as [A B]. split; [now rewrite Nat.add_succ_r in A|].
    eapply Forall2_weaken; [|exact (Forall2_compose _ _ _ _ _ F B)]. cbv beta. intros x z (y & X & Y). apply step_trailing in X. lia.
Qed.
Lemma set_extra_same e : set_extra e (en_extra e) = e.
Proof. now destruct e. Qed.
Lemma settled cd cfg n es es1 es2 : codec_ok cd -> Forall copyable es -> (2 <= n)%nat -> Forall (fun x => (trailing x <= n)%nat) es ->
  copies cd cfg n es es1 -> copied cd cfg es1 es2 -> es2 = es1.
Proof.
  intros K G N2 TR C C1.
  destruct (stages cd cfg n es es1 K G C 0) as [ST TL]. { eapply Forall_impl; [|exact G]. intros x (_ & _ & S1 & S2 & _). now split. }
  destruct (generations cd cfg n es es1 K G C) as [_ G1]. pose proof (generation cd cfg es1 es2 K G1 C1) as F.
  rewrite Nat.add_0_r in ST. destruct n as [|[|n]]; try lia.
  assert (Z : Forall (fun y => trailing y = 0%nat) es1).
  { clear -TL TR. induction TL as [|x y es es1 L _ IH]; constructor; inversion TR; subst; [lia|auto]. }
  clear -F ST Z. induction F as [|x y es1 es2 (E & f & lx & C) _ IH]; [reflexivity|]. inversion ST; subst. inversion Z; subst.
  f_equal; [|now apply IH]. destruct x as [e data], y as [e' data']. cbn in *. subst data'. f_equal.
  rewrite (step_more _ _ _ _ _ _ H1 C), heard_all by assumption. apply set_extra_same.
Qed.
Lemma copied_as_copied cd cfg es d es' : copied_as cd cfg es d es' -> copied cd cfg es es'.
Proof.
  intros (sched & _ & H). exists sched. destruct (run_archive cd sched (copy_ops es)) as [[xs r] w]. destruct H as (H1 & H2 & <- & H4 & H5). auto.
Qed.
Lemma same_bytes cd cfg es d d' es1 es2 : copied_as cd cfg es d es1 -> copied_as cd cfg es d' es2 -> d' = d.
Proof.
  intros (s1 & O1 & H1) (s2 & O2 & H2). pose proof (run_archive_calm cd s1 (copy_ops es) O1) as E1. pose proof (run_archive_calm cd s2 (copy_ops es) O2) as E2.
  destruct (run_archive cd s1 _) as [[x1 r1] w1], (run_archive cd s2 _) as [[x2 r2] w2], (run_archive cd [] _) as [[x0 r0] w0].
  destruct H1 as (_ & _ & <- & _), H2 as (_ & _ & <- & _), E1 as (_ & _ & E1), E2 as (_ & _ & E2). congruence.
Qed.
Lemma settled_bytes cd cfg n es es1 d d' es2 es3 : codec_ok cd -> Forall copyable es -> (2 <= n)%nat -> Forall (fun x => (trailing x <= n)%nat) es ->
  copies cd cfg n es es1 -> copied_as cd cfg es1 d es2 -> copied_as cd cfg es2 d' es3 -> d' = d /\ es2 = es1 /\ es3 = es1.
Proof.
  intros K G N2 TR C C1 C2. pose proof (settled cd cfg n es es1 es2 K G N2 TR C (copied_as_copied _ _ _ _ _ C1)) as ->.
  split; [|split; [reflexivity|]].
  - exact (same_bytes _ _ _ _ _ _ _ C1 C2).
  - exact (settled cd cfg n es es1 es3 K G N2 TR C (copied_as_copied _ _ _ _ _ C2)).
Qed.
