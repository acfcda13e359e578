(** Property theorems: writing and extracting. *)
From Verif Require Import Base BaseFacts SpecFormat SpecCrc SpecUtf8 SpecArchive SpecRead SpecWrite SpecExtract SpecBack ZString ZDate Headers ExtraField Entry IO IOFacts Reader
  EntryReader Writer Extract ExtractProofs EntryProofs Samples WriteSamples SpecOrdinary Properties_Ordinary Properties_Extract BackProofs Utf8 Utf8Facts Inflate InflateFacts.

(** * C61. What is written under plain names is found again, file by file, where the extraction example puts it. *)
Theorem C61_back cd cfg sched s l sanitize t dir ws :
  codec_ok cd -> obliging sched -> Forall handy l -> Forall ordinary_op l -> Forall proper l -> ordinary l -> entry_mem_size cfg <= 0x1000000000000 ->
  plain_names sanitize -> sanitize [] = [] -> fair dir t ->
  Forall2 (asks cd sanitize) (filter writes_entry l) ws -> ForallOrdPairs together ws ->
  let '(_, _, w) := run_archive cd sched l in
  len (w_bytes w) < 0x5000000 -> s_data s = w_bytes w -> nofail (s_sched s) ->
  let '(r, h, _) := unzip_file cd cfg sanitize t dir s in
  r = Ok tt /\ filled h = files dir ws /\ created h = map fst (files dir ws) /\
  (forall p, In (AFolder p) ws -> made t h (below dir p ++ [x2f])).
Proof. exact (there_and_back cd cfg sched s l sanitize t dir ws). Qed.
Print Assumptions C61_back.

(** The same for any session of calls, some of which may have failed, whose archive can be told for what it is (as in C01). *)
Theorem C61_told cd cfg sched s l sanitize t dir ws :
  codec_ok cd -> Forall op_good l -> plain_names sanitize -> sanitize [] = [] -> fair dir t ->
  let '(xs, r, w) := run_archive cd sched l in
  Forall2 (asks cd sanitize) (map snd (succeeded false xs)) ws -> ForallOrdPairs together ws ->
  Forall (fun o => forall e, op_entry o = Some e -> texts_clear e /\ zs_enc (en_filename e) = EUtf8) (map snd (succeeded false xs)) ->
  Forall (fun x => forall it, leaves cd (fst x) (snd x) it -> straight it) (succeeded false xs) ->
  r = Ok tt -> unambiguous cd cfg l xs (w_zip64 w) (w_bytes w) -> s_data s = w_bytes w -> nofail (s_sched s) ->
  let '(r, h, _) := unzip_file cd cfg sanitize t dir s in
  r = Ok tt /\ filled h = files dir ws /\ created h = map fst (files dir ws) /\
  (forall p, In (AFolder p) ws -> made t h (below dir p ++ [x2f])).
Proof. exact (told_and_back cd cfg sched s l sanitize t dir ws). Qed.
Print Assumptions C61_told.

(** ** A disk that behaves like one *)
Fixpoint starts (a b : list bytes) : bool :=
  match a, b with
  | [], _ => true
  | x :: a, y :: b => bytes_eqb x y && starts a b
  | _, [] => false
  end.
Definition steps (p : bytes) : list bytes := filter (fun q => negb (idle q)) (split_slash p).
(** the directories there are: the output directory, those made, and those above *)
Definition is_directory (out : bytes) (h : list action) (p : list bytes) : bool :=
  starts p (steps out) ||
  existsb (fun a => match a with MakeDirs q => starts p (steps q) | MakeParent q => starts p (removelast (steps q)) | _ => false end) h.
Definition disk (out : bytes) : tree :=
  {| t_exists h p := is_directory out h (steps p) || existsb (fun q => starts (steps q) (steps p)) (created h);
     t_parent_is_dir h p := is_directory out h (removelast (steps p));
     t_accepts h a :=
       match a with
       | MakeDirs p => negb (existsb (fun q => starts (steps q) (steps p)) (created h))
       | MakeParent p => negb (existsb (fun q => starts (steps q) (removelast (steps p))) (created h))
       | CreateNew p => negb (existsb (fun q => starts (steps q) (steps p)) (created h)) && negb (is_directory out h (steps p))
                        && is_directory out h (removelast (steps p))
       | Fill p _ => existsb (bytes_eqb p) (created h)
       end |}.
Lemma starts_app a b : starts a b = true -> exists c, b = a ++ c.
Proof.
  revert b. induction a as [|x a IH]; intros b H; [now exists b|]. destruct b as [|y b]; [discriminate|]. cbn in H.
  apply andb_prop in H as [E H]. apply bytes_eqb_eq in E. subst y. destruct (IH b H) as (c & ->). now exists c.
Qed.
Lemma starts_self a : starts a a = true.
Proof. induction a as [|x a IH]; [reflexivity|]. cbn. rewrite IH, andb_true_r. now apply bytes_eqb_eq. Qed.
Lemma steps_walks p : walks p (steps p).
Proof. exists (split_slash p). split; [apply split_pieces|reflexivity]. Qed.
Lemma starts_leads p q : starts (steps p) (steps q) = true -> leads p q.
Proof. intros H. apply starts_app in H as (c & E). exists (steps p), c. split; [apply steps_walks|]. rewrite <- E. apply steps_walks. Qed.
Lemma starts_leads_on p q : steps q <> [] -> starts (steps p) (removelast (steps q)) = true -> leads_on p q.
Proof.
  intros NE H. apply starts_app in H as (c & E). exists (steps p), (c ++ [last (steps q) []]). split; [apply steps_walks|]. split.
  - rewrite app_assoc, <- E, <- app_removelast_last by exact NE. apply steps_walks.
  - now destruct c.
Qed.
Lemma disk_fair out : fair out (disk out).
Proof.
  intros h a IN. assert (ST : exists r, steps (acts_on a) = steps out ++ r /\ r <> []).
  { destruct IN as (u & v & U & V & NE). rewrite (walks_unique _ _ _ U (steps_walks out)) in V.
    rewrite (walks_unique _ _ _ (steps_walks (acts_on a)) V). now exists v. }
  destruct ST as (r & ST & NE). assert (NN : steps (acts_on a) <> []) by (rewrite ST; intro X; now apply app_eq_nil in X).
  destruct a as [p|p|p|p b]; cbn [acts_on disk t_accepts] in *; intros H.
  - apply negb_false_iff, existsb_exists in H as (q & I & L). exists q. split; [exact I|now apply starts_leads].
  - apply negb_false_iff, existsb_exists in H as (q & I & L). exists q. split; [exact I|now apply starts_leads_on].
  - apply andb_false_iff in H as [H|H]; [apply andb_false_iff in H as [H|H]|].
    + left. apply negb_false_iff, existsb_exists in H as (q & I & L). exists q. split; [exact I|now apply starts_leads].
    + apply negb_false_iff, orb_true_iff in H as [H|H].
      * exfalso. apply starts_app in H as (c & E). rewrite ST, <- app_assoc in E. rewrite <- (app_nil_r (steps out)) in E at 1.
        apply app_inv_head in E. symmetry in E. now apply app_eq_nil in E.
      * apply existsb_exists in H as (a & I & L). destruct a as [q|q|q|q b]; try discriminate L.
        -- right. left. exists q. split; [exact I|now apply starts_leads].
        -- right. right. left. exists q. split; [exact I|]. apply starts_leads_on; [|exact L].
           intros X. rewrite X in L. destruct (steps p); [now elim NN|discriminate L].
    + right. right. right. split; [exact H|]. intros I.
      assert (X : is_directory out h (removelast (steps p)) = true).
      { apply orb_true_iff. right. apply existsb_exists. exists (MakeParent p). split; [exact I|]. apply starts_self. }
      congruence.
  - intros I. assert (X : existsb (bytes_eqb p) (created h) = true) by (apply existsb_exists; exists p; split; [exact I|now apply bytes_eqb_eq]). congruence.
Qed.

(** A tree of files with a DEFLATE codec: "a/b", "a/c/d" (an empty file), "e/" (a folder) and "f". *)
Definition called (n : bytes) (c : compression) : zentry := mk_entry (utf8 n) (utf8 []) c [].
Definition belongings : list wop :=
  [OpWhole (called [x61; x2f; x62] Deflate) [x07; x08; x09]; OpComment [x68; x69];
   OpStream false (called [x61; x2f; x63; x2f; x64] Stored) [] true;
   OpWhole (called [x65; x2f] Stored) [];
   OpStream false (called [x66] Deflate) [SWriteAll [x01]; SWriteAll [x02; x03]] true].
Definition wishes : list wish :=
  [AFile [[x61]; [x62]] [x07; x08; x09]; AFile [[x61]; [x63]; [x64]] []; AFolder [[x65]]; AFile [[x66]] [x01; x02; x03]].
Lemma belongings_fit : Forall handy belongings /\ Forall ordinary_op belongings /\ Forall proper belongings /\ ordinary belongings.
Proof.
  assert (RO : forall n c, len n + 60 <= 65535 -> roomy (called n c)).
  { intros n c L. unfold roomy. cbn [called mk_entry en_extra en_filename en_comment utf8 zs_raw stored_bytes zs_alt]. change (len (spec_extras [])) with 0. change (len []) with 0. lia. }
  assert (U : forall l, utf8_valid l = true -> sound_string (utf8 l)) by (intros l H; split; [intros _; now apply utf8_valid_iff|discriminate]).
  split; [|split; [|split]].
  - assert (G : Forall op_good belongings) by (repeat constructor; cbn; discriminate). rewrite Forall_forall in G. apply Forall_forall. intros o I.
    split; [|split; [now apply G|]]; cbn in I;
      repeat (destruct I as [<-|I]; [first [discriminate | split; [first [discriminate | exact (fun x => x)] | first [apply RO; vm_compute; discriminate | exact Logic.I]]]|]); elim I.
  - repeat (constructor; [first [exact I | unfold ordinary_op, ordinary_entry, plain_text, free_of; cbn [op_entry]; repeat split; vm_compute; intuition discriminate]|]). constructor.
  - repeat (constructor; [first [exact I | split; apply U; vm_compute; reflexivity]|]). constructor.
  - unfold ordinary, free_of. vm_compute. split; [reflexivity|]. split; [discriminate|]. intuition discriminate.
Qed.
Lemma belongings_ask : Forall2 (asks flate strip) (filter writes_entry belongings) wishes /\ ForallOrdPairs together wishes.
Proof.
  assert (PN : forall b, b2n b = 0x61 \/ b2n b = 0x62 \/ b2n b = 0x63 \/ b2n b = 0x64 \/ b2n b = 0x65 \/ b2n b = 0x66 -> plain_name strip [b]).
  { intros b B. destruct b; vm_compute in B; try (repeat destruct B as [B|B]; discriminate B); (split; [discriminate|]); (split; [intros [X|[]]; discriminate X|]); (split; [intros [X|[]]; discriminate X|]); reflexivity. }
  split.
  - cbn [filter belongings writes_entry]. unfold wishes.
    constructor; [eapply asks_file; [reflexivity|discriminate|repeat constructor; apply PN; cbn; tauto|reflexivity|apply holds_whole]|].
    constructor; [eapply asks_file; [reflexivity|discriminate|repeat constructor; apply PN; cbn; tauto|reflexivity|apply (holds_stream flate _ [])]|].
    constructor; [eapply asks_folder; [reflexivity|discriminate|repeat constructor; apply PN; cbn; tauto|reflexivity|apply holds_whole]|].
    constructor; [eapply asks_file; [reflexivity|discriminate|repeat constructor; apply PN; cbn; tauto|reflexivity|apply (holds_stream flate _ [SWriteAll [x01]; SWriteAll [x02; x03]])]|constructor].
  - assert (W : forall a b p q, a <> b -> ~ on_the_way (a :: p) (b :: q)) by (intros a b p q NE (r & E); injection E as E _; now apply NE).
    unfold wishes. repeat constructor; cbn [together]; try split; try (apply W; discriminate); intros (r & E); try discriminate E.
Qed.
Example C61_case : codec_ok flate /\ obliging bumpy /\ plain_names strip /\ strip [] = [] /\ fair here (disk here) /\
  (Forall handy belongings /\ Forall ordinary_op belongings /\ Forall proper belongings /\ ordinary belongings) /\
  (Forall2 (asks flate strip) (filter writes_entry belongings) wishes /\ ForallOrdPairs together wishes) /\
  let '(_, _, w) := run_archive flate bumpy belongings in
  len (w_bytes w) = 585 /\
  let '(r, h, _) := unzip_file flate cfg0 strip (disk here) here (cursor (w_bytes w)) in
  r = Ok tt /\
  let at_ p := here ++ [x2f] ++ p in
  h = [MakeParent (at_ [x61; x2f; x62]); CreateNew (at_ [x61; x2f; x62]); Fill (at_ [x61; x2f; x62]) [x07; x08; x09];
       MakeParent (at_ [x61; x2f; x63; x2f; x64]); CreateNew (at_ [x61; x2f; x63; x2f; x64]); Fill (at_ [x61; x2f; x63; x2f; x64]) [];
       MakeDirs (at_ [x65; x2f]); CreateNew (at_ [x66]); Fill (at_ [x66]) [x01; x02; x03]].
Proof.
  split; [exact flate_ok|]. split; [repeat constructor; discriminate|]. split; [exact strip_plain|]. split; [reflexivity|]. split; [exact (disk_fair here)|].
  split; [exact belongings_fit|]. split; [exact belongings_ask|]. vm_compute. repeat split; reflexivity.
Qed.

(** A session that C61_back does not speak of: one stream is given up, ZIP64 is forbidden midway, and byte 07 is in the comment. *)
Definition stumbling : list wop :=
  [OpComment [x07; x06]; OpStream false (called [x7a] Stored) [SWriteAll [x01]] false; OpWhole (called [x61; x2f; x62] Deflate) [x07; x08; x09];
   OpForceNoZip64; OpStream false (called [x79] Stored) [SWriteAll [x05]] true; OpWhole (called [x66] Stored) [x02]].
Definition left_over : list wish := [AFile [[x61]; [x62]] [x07; x08; x09]; AFile [[x79]] [x05]; AFile [[x66]] [x02]].
Example C61_stumbling : codec_ok toy /\ Forall op_good stumbling /\ ForallOrdPairs together left_over /\
  let '(xs, r, w) := run_archive toy bumpy stumbling in
  Forall2 (asks toy strip) (map snd (succeeded false xs)) left_over /\
  Forall (fun o => forall e, op_entry o = Some e -> texts_clear e /\ zs_enc (en_filename e) = EUtf8) (map snd (succeeded false xs)) /\
  Forall (fun x => forall it, leaves toy (fst x) (snd x) it -> straight it) (succeeded false xs) /\
  r = Ok tt /\ unambiguous toy cfg0 stumbling xs (w_zip64 w) (w_bytes w).
Proof.
  split; [exact toy_ok|]. split; [repeat constructor; cbn; discriminate|]. split.
  { assert (W : forall a b p q, a <> b -> ~ on_the_way (a :: p) (b :: q)) by (intros a b p q NE (r & E); injection E as E _; now apply NE).
    unfold left_over. repeat constructor; cbn [together]; try split; try (apply W; discriminate); intros (r & E); try discriminate E. }
  assert (H : let '(xs, r, w) := run_archive toy bumpy stumbling in
    r = Ok tt /\ clear_end xs (w_zip64 w) (last_comment stumbling) (w_bytes w) = true /\
    succeeded false xs = [(false, OpWhole (called [x61; x2f; x62] Deflate) [x07; x08; x09]); (true, OpStream false (called [x79] Stored) [SWriteAll [x05]] true);
                          (true, OpWhole (called [x66] Stored) [x02])]) by (vm_compute; repeat split; reflexivity).
  destruct (run_archive toy bumpy stumbling) as [[xs r] w]. destruct H as (-> & H & ->). apply (clear_end_ok toy) in H.
  assert (PN : forall b, b2n b = 0x61 \/ b2n b = 0x62 \/ b2n b = 0x66 \/ b2n b = 0x79 -> plain_name strip [b]).
  { intros b B. destruct b; vm_compute in B; try (repeat destruct B as [B|B]; discriminate B); (split; [discriminate|]); (split; [intros [X|[]]; discriminate X|]); (split; [intros [X|[]]; discriminate X|]); reflexivity. }
  cbn [map snd]. split; [|split; [|split; [|split; [reflexivity|exact H]]]].
  - constructor; [eapply asks_file; [reflexivity|discriminate|repeat constructor; apply PN; cbn; tauto|reflexivity|apply holds_whole]|].
    constructor; [eapply asks_file; [reflexivity|discriminate|repeat constructor; apply PN; cbn; tauto|reflexivity|apply (holds_stream toy _ [SWriteAll [x05]])]|].
    constructor; [eapply asks_file; [reflexivity|discriminate|repeat constructor; apply PN; cbn; tauto|reflexivity|apply holds_whole]|constructor].
  - assert (U : forall l, utf8_valid l = true -> sound_string (utf8 l)) by (intros l V; split; [intros _; now apply utf8_valid_iff|discriminate]).
    repeat (constructor; [intros e E; injection E as <-; split; [split; [apply U; reflexivity|split; [apply U; reflexivity|left; now repeat split]]|reflexivity]|]). constructor.
  - constructor; [intros it L X; cbn [fst snd] in L; inversion L; subst; discriminate X|].
    constructor; [|constructor; [intros it L X; cbn [fst snd] in L; inversion L; subst; discriminate X|constructor]].
    intros it L _. cbn [fst snd] in L. inversion L as [| |e d z o C|]; subst. inversion C as [c E|lv c o' st N]; [reflexivity|now elim N].
Qed.
(** Names need to be plain: one file called "a\b" and another called "a/b" are written without complaint, and extraction breaks off
    at the second. *)
Theorem C61_backslash : exists l, Forall handy l /\ Forall ordinary_op l /\ Forall proper l /\ ordinary l /\
  NoDup (map (fun o => match op_entry o with Some e => zs_raw (en_filename e) | None => [] end) l) /\
  let '(xs, r, w) := run_archive toy [] l in
  xs = map (fun o => (o, Ok tt)) l /\ r = Ok tt /\
  let '(r, h, _) := unzip_file toy cfg0 strip (disk here) here (cursor (w_bytes w)) in
  r = Panic PUnwrap /\ len (filled h) = 1.
Proof.
  exists [OpWhole (called [x61; x5c; x62] Stored) [x01]; OpWhole (called [x61; x2f; x62] Stored) [x02]].
  assert (RO : forall n c, len n + 60 <= 65535 -> roomy (called n c)).
  { intros n c L. unfold roomy. cbn [called mk_entry en_extra en_filename en_comment utf8 zs_raw stored_bytes zs_alt]. change (len (spec_extras [])) with 0. change (len []) with 0. lia. }
  assert (U : forall l, utf8_valid l = true -> sound_string (utf8 l)) by (intros l H; split; [intros _; now apply utf8_valid_iff|discriminate]).
  split.
  { repeat (constructor; [split; [discriminate|]; split; [repeat constructor; cbn; discriminate|]; split; [discriminate|]; apply RO; vm_compute; discriminate|]). constructor. }
  split; [repeat (constructor; [unfold ordinary_op, ordinary_entry, plain_text, free_of; cbn [op_entry]; repeat split; vm_compute; intuition discriminate|]); constructor|].
  split; [repeat (constructor; [split; apply U; vm_compute; reflexivity|]); constructor|].
  split; [unfold ordinary, free_of; vm_compute; split; [reflexivity|]; split; [discriminate|]; intuition discriminate|].
  split; [constructor; [intros [X|[]]; discriminate X|constructor; [intros []|constructor]]|].
  vm_compute. repeat split; reflexivity.
Qed.
Print Assumptions C61_backslash.
