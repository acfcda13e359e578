(** Opening never runs out of fuel and panics only in the two known ways. *)
From Verif Require Import Base BaseFacts SpecFormat SpecUtf8 SpecArchive Utf8 Utf8Facts ZString ZDate
  Headers HeadersFacts ExtraField ExtraFieldFacts Entry EntryFacts IO IOFacts Locator LocatorFacts Reader ReaderFacts OpenFacts.
Arguments N.add : simpl never.
Arguments N.sub : simpl never.
Arguments N.min : simpl never.
Arguments N.mul : simpl never.

(** the only panics: arithmetic overflow when checks are on, and a capacity overflow *)
Definition tame {A} (cfg : config) (r : res A) : Prop :=
  match r with
  | Panic POverflow => overflow_checks cfg = true
  | Panic PCapacity => True
  | Panic _ => False
  | _ => True
  end.
(** additionally no capacity overflow *)
Definition tamer {A} (cfg : config) (r : res A) : Prop :=
  match r with Panic p => p = POverflow /\ overflow_checks cfg = true | _ => True end.
Lemma tamer_tame {A} cfg (r : res A) : tamer cfg r -> tame cfg r.
Proof. destruct r as [| |[]]; cbn; try easy; intros [? ?]; easy. Qed.

Lemma parse_tamer cfg d u c : tamer cfg (parse_extra_fields cfg d u c).
Proof.
  destruct (block_total d) as (l & ok & Hb). destruct (parse_block cfg d u c l ok Hb) as (last & -> & H1 & H2 & H3).
  assert (T : tamer cfg last).
  { destruct ok; [now rewrite H1|]. destruct (overflow_checks cfg) eqn:E.
    - rewrite H2 by easy. now split.
    - destruct (H3 eq_refl eq_refl) as (sz & r & ->). exact I. }
  clear - T. induction l as [|[id p] l IH]; [exact T|]. cbn [decode_all].
  destruct (extra_field_from_bytes_total id p u c) as [(x & -> & _)|[-> | ->]]; try exact I. cbn [rbind].
  now destruct (decode_all cfg u c l last).
Qed.

Definition tameM {A} (cfg : config) (m : SM source A) : Prop := forall d p, tame cfg (fst (m (src d p))).
Definition tamerM {A} (cfg : config) (m : SM source A) : Prop := forall d p, tamer cfg (fst (m (src d p))).

Lemma tamer_bind {A B} cfg (m : SM source A) (f : A -> SM source B) :
  insens m -> tamerM cfg m -> (forall a, tamerM cfg (f a)) -> tamerM cfg (bind m f).
Proof.
  intros I Hm Hf d p. unfold bind. destruct (insens_src m d p I) as (r & p' & E). specialize (Hm d p). rewrite E in *.
  cbn [fst] in Hm. destruct r; [apply Hf|exact Logic.I|exact Hm].
Qed.
Lemma tame_bind {A B} cfg (m : SM source A) (f : A -> SM source B) :
  insens m -> tameM cfg m -> (forall a, tameM cfg (f a)) -> tameM cfg (bind m f).
Proof.
  intros I Hm Hf d p. unfold bind. destruct (insens_src m d p I) as (r & p' & E). specialize (Hm d p). rewrite E in *.
  cbn [fst] in Hm. destruct r; [apply Hf|exact Logic.I|exact Hm].
Qed.
Lemma tamer_ret {A} cfg (a : A) : tamerM cfg (ret a). Proof. intros d p. exact I. Qed.
Lemma tamer_fail {A} cfg e : tamerM cfg (@fail source A e). Proof. intros d p. exact I. Qed.
Lemma tamer_lift {A} cfg (r : res A) : tamer cfg r -> tamerM cfg (lift r). Proof. intros H d p. exact H. Qed.
Lemma tamer_seek_start cfg q : tamerM cfg (seek_start q). Proof. intros d p. exact I. Qed.
Lemma tamer_seek_current cfg q : tamerM cfg (seek_current q).
Proof. intros d p. unfold seek_current. destruct (_ <=? _); exact I. Qed.
Lemma tamer_read_exact cfg n : tamerM cfg (read_exact n).
Proof. intros d p. rewrite read_exact_calm. unfold exact_result. destruct (_ <=? _); exact I. Qed.
Lemma tamer_read_bytes cfg n : tamerM cfg (read_bytes n).
Proof. intros d p. rewrite read_bytes_calm. exact I. Qed.
Lemma tamer_locate cfg : tamerM cfg eocdr_locate.
Proof. intros d p. change (tamer cfg (locate d p)). destruct (locate_spec d p) as [(q & -> & _)|(-> & _)]; exact I. Qed.
Lemma compression_tamer cfg v : tamer cfg (compression_try_from v).
Proof.
  destruct (compression_try_from v) as [c|e|p] eqn:E; try exact I. exfalso. revert E. unfold compression_try_from.
  repeat (match goal with |- context [match ?x with _ => _ end] => destruct x end; try discriminate).
Qed.
Lemma uadd_tamer cfg a b : tamer cfg (uadd cfg a b).
Proof. unfold uadd. destruct (_ <=? _); [exact I|]. destruct (overflow_checks cfg) eqn:E; cbn; auto. Qed.

Create HintDb tamer.
#[export] Hint Resolve tamer_ret tamer_fail tamer_lift tamer_seek_start tamer_seek_current tamer_read_exact
  tamer_read_bytes tamer_locate compression_tamer parse_tamer uadd_tamer : tamer.
Ltac tamer_step :=
  lazymatch goal with
  | |- tamerM _ (bind _ _) => apply tamer_bind; [insens_tac| |intro]
  | |- tamerM _ (if ?b then _ else _) => destruct b
  | |- tamerM _ (match ?b with _ => _ end) => destruct b
  | |- tamerM _ (let _ := _ in _) => cbv zeta
  | |- _ => solve [auto with tamer]
  end.
Ltac tamer_tac := repeat tamer_step.

Lemma tamer_assert_signature cfg x : tamerM cfg (assert_signature x).
Proof. unfold assert_signature. tamer_tac. Qed.
Lemma tamer_lfh_from_reader cfg : tamerM cfg lfh_from_reader.
Proof. unfold lfh_from_reader. tamer_tac. Qed.
Lemma tamer_eocdr_from_reader cfg : tamerM cfg eocdr_from_reader.
Proof. unfold eocdr_from_reader. tamer_tac. Qed.
Lemma tamer_cdr_from_reader cfg : tamerM cfg cdr_from_reader.
Proof. unfold cdr_from_reader. tamer_tac. Qed.
Lemma tamer_z64_eocdr_from_reader cfg : tamerM cfg z64_eocdr_from_reader.
Proof. unfold z64_eocdr_from_reader. tamer_tac. Qed.
Lemma tamer_z64_eocdl_try cfg : tamerM cfg z64_eocdl_try_from_reader.
Proof. unfold z64_eocdl_try_from_reader. tamer_tac. Qed.
Lemma tamer_read_string cfg n e : tamerM cfg (read_string n e).
Proof. unfold read_string. tamer_tac. Qed.
#[export] Hint Resolve tamer_assert_signature tamer_lfh_from_reader tamer_eocdr_from_reader tamer_cdr_from_reader
  tamer_z64_eocdr_from_reader tamer_z64_eocdl_try tamer_read_string : tamer.

Lemma tamer_cd_record cfg : tamerM cfg (cd_record cfg).
Proof. unfold cd_record. tamer_tac. Qed.
Lemma tamer_lfh_read cfg : tamerM cfg (lfh_read cfg).
Proof. unfold lfh_read. tamer_tac. Qed.
Lemma tamer_seek_to_data_offset cfg e : tamerM cfg (seek_to_data_offset e).
Proof. unfold seek_to_data_offset. tamer_tac. Qed.

(** ** Successful reads advance inside the data *)
Lemma read_exact_inv n d p b s' : read_exact n (src d p) = (Ok b, s') ->
  s' = src d (p + n) /\ b = take n (drop p d) /\ len b = n /\ (0 < n -> p + n <= len d).
Proof.
  rewrite read_exact_calm. unfold exact_result, avail; cbn [s_data s_pos src].
  destruct (n <=? len (drop p d)) eqn:E; intro H; [|discriminate].
  injection H as <- <-. rewrite len_drop in E. rewrite len_take, len_drop.
  repeat split; try lia. f_equal. lia.
Qed.
Lemma read_bytes_inv n d p b s' : read_bytes n (src d p) = (Ok b, s') ->
  s' = src d (p + N.min n (len d - p)) /\ b = take n (drop p d).
Proof. rewrite read_bytes_calm, len_drop. intro H. injection H as <- <-. auto. Qed.

Lemma assert_signature_inv sg d p a s' : assert_signature sg (src d p) = (Ok a, s') ->
  s' = src d (p + 4) /\ p + 4 <= len d /\ from_le (take 4 (drop p d)) = sg.
Proof.
  unfold assert_signature. intro H. apply bind_inv in H as (b & s1 & H1 & H2).
  apply read_exact_inv in H1 as (-> & -> & _ & L). cbv zeta in H2.
  destruct (from_le (take 4 (drop p d)) =? sg) eqn:E; [|discriminate]. injection H2 as _ <-.
  repeat split; lia.
Qed.
Lemma lift_inv {S A} (r : res A) (s : S) a s' : lift r s = (Ok a, s') -> r = Ok a /\ s' = s.
Proof. unfold lift. intro H. now injection H. Qed.
Lemma ret_inv {S A} (a b : A) (s : S) s' : ret a s = (Ok b, s') -> a = b /\ s = s'.
Proof. unfold ret. intro H. now injection H. Qed.

(** everything a successful [cd_record] tells us *)
Lemma cd_record_inv cfg d p e s' : cd_record cfg (src d p) = (Ok e, s') ->
  exists hb name x comment p', s' = src d p' /\ p + 46 <= p' /\ p' <= len d /\
    hb = take 42 (drop (p + 4) d) /\ len hb = 42 /\ from_le (take 4 (drop p d)) = CDH_SIGNATURE /\
    name = take (c_file_name_length (cdr_from hb)) (drop (p + 46) d) /\
    cd_view cfg (cdr_from hb) name x comment = Ok e.
Proof.
  unfold cd_record. intro H.
  apply bind_inv in H as (u & s1 & H1 & H). apply assert_signature_inv in H1 as (-> & L1 & Hs).
  apply bind_inv in H as (h & s2 & H1 & H). unfold cdr_from_reader in H1.
  apply bind_inv in H1 as (hb & s3 & H1 & H2). apply read_exact_inv in H1 as (-> & Eb & Lb & L2).
  apply ret_inv in H2 as [<- <-]. cbv zeta in H.
  apply bind_inv in H as (name & s3 & H1 & H). apply read_bytes_inv in H1 as (-> & En).
  apply bind_inv in H as (c & s3 & H1 & H). apply lift_inv in H1 as (Ec & ->).
  apply bind_inv in H as (x & s3 & H1 & H). apply read_bytes_inv in H1 as (-> & Ex).
  apply bind_inv in H as (xs & s3 & H1 & H). apply lift_inv in H1 as (Exs & ->).
  apply bind_inv in H as (k & s3 & H1 & H). apply read_bytes_inv in H1 as (-> & Ek).
  specialize (L2 ltac:(lia)).
  eexists hb, name, x, k, _. split.
  { destruct (get_combined_sizes _ _ _) as [us cs]. apply ret_inv in H as [_ <-]. reflexivity. }
  split; [lia|]. split; [lia|]. split; [exact Eb|]. split; [exact Lb|]. split; [exact Hs|].
  split; [rewrite En; f_equal; f_equal; lia|].
  unfold cd_view. rewrite Ec. cbn [rbind]. rewrite Exs. cbn [rbind]. unfold cd_entry_view, cd_sizes, cd_offset.
  destruct (get_combined_sizes _ _ _) as [us cs]. apply ret_inv in H as [<- _]. reflexivity.
Qed.

Lemma cd_loop_tamer cfg d : forall f n p, (N.to_nat (len d - p) < f)%nat ->
  tamer cfg (fst (cd_loop cfg f n (src d p))).
Proof.
  induction f as [|f IH]; intros n p Hf; [lia|]. cbn [cd_loop].
  destruct (n =? 0); [exact I|]. unfold bind at 1. pose proof (tamer_cd_record cfg d p) as T.
  destruct (cd_record cfg (src d p)) as [[e|er|pn] s1] eqn:E; [|exact I|exact T].
  apply cd_record_inv in E as (hb & nm & x & k & p' & -> & L1 & L2 & _).
  specialize (IH (n - 1) p' ltac:(lia)). unfold bind.
  destruct (cd_loop cfg f (n - 1) (src d p')) as [[es|er|pn] s2]; [exact I|exact I|exact IH].
Qed.

Lemma cd_tame cfg n d p : tame cfg (fst (cd cfg n (src d p))) /\
  (n * entry_mem_size cfg <= isize_max -> tamer cfg (fst (cd cfg n (src d p)))).
Proof.
  unfold cd, with_capacity. destruct (n * entry_mem_size cfg <=? isize_max) eqn:E.
  - assert (T : tamer cfg (fst (cd_loop cfg (S (length d)) n (src d p)))) by (apply cd_loop_tamer; unfold len; lia).
    unfold bind, lift, get. cbn [s_data src]. split; [now apply tamer_tame|auto].
  - unfold bind, lift. split; [exact I|lia].
Qed.

Lemma directory_tame cfg c z k d p : tame cfg (fst (directory cfg c z k (src d p))) /\
  (cb_num_entries c * entry_mem_size cfg <= isize_max -> tamer cfg (fst (directory cfg c z k (src d p)))).
Proof.
  unfold directory. destruct (_ || _); [split; intros; exact I|].
  unfold bind at 1 3. rewrite seek_start_src. destruct (cd_tame cfg (cb_num_entries c) d (cb_offset c)) as [T1 T2].
  unfold bind. destruct (cd cfg (cb_num_entries c) (src d (cb_offset c))) as [[es|e|pn] s]; cbn [fst] in *;
    (split; [|intro L]); try exact I; auto.
Qed.

(** the result of [file] in terms of [directory]: an error of an earlier step, or the directory step *)
Definition file_case cfg d (r : res zfile) : Prop :=
  (exists e, r = Err e) \/ (r = Panic POverflow /\ overflow_checks cfg = true) \/
  (exists e k, r = fst (directory cfg (combined_from e) false k (src d 0)) /\ e_num_of_entries e < 65536 /\ zs_sound k) \/
  (exists e z k, r = fst (directory cfg (combine e z) true k (src d 0)) /\ zs_sound k /\
      exists q, occurs (to_le 4 ZIP64_EOCDL_SIGNATURE) d q).
Lemma case_err cfg d e : file_case cfg d (Err e).
Proof. left. eauto. Qed.
Lemma case_panic cfg d (A : Type) (r : res A) p : tamer cfg r -> r = Panic p -> file_case cfg d (Panic p).
Proof. intros T ->. destruct T as [-> T]. right; left; auto. Qed.
Lemma file_cases cfg d p0 : file_case cfg d (fst (file cfg (src d p0))).
Proof.
  unfold file.
  destruct (locate_spec d p0) as [(q & Hq & L4 & O & _)|(H & _)].
  2:{ unfold locate in H. unfold bind at 1. destruct (eocdr_locate (src d p0)) as [r s]. cbn [fst] in H. subst r. apply case_err. }
  destruct (eocdr_locate_calm d p0 q Hq) as [p1 H1].
  rewrite (bind_ok _ _ _ _ _ H1). rewrite (bind_ok _ _ _ _ _ (seek_start_src q d p1)).
  pose proof (tamer_eocdr_from_reader cfg d q) as T.
  destruct (insens_src eocdr_from_reader d q ltac:(auto with insens)) as (r2 & p2 & E2). rewrite E2 in T.
  unfold bind at 1. rewrite E2. destruct r2 as [e|er|pn]; [|apply case_err|exact (case_panic _ _ _ _ _ T eq_refl)].
  assert (Be : e_num_of_entries e < 65536).
  { unfold eocdr_from_reader in E2. apply bind_inv in E2 as (b & s1 & _ & Ee). apply ret_inv in Ee as [<- _].
    apply (eocdr_from_ok b). }
  clear T. pose proof (tamer_read_string cfg (e_file_comm_length e) EUtf8 d p2) as T.
  unfold bind at 1. destruct (insens_src (read_string (e_file_comm_length e) EUtf8) d p2 ltac:(auto with insens)) as (r3 & p3 & E3).
  rewrite E3 in *. destruct r3 as [k|er|pn]; [|apply case_err|exact (case_panic _ _ _ _ _ T eq_refl)].
  assert (Sk : zs_sound k).
  { unfold read_string in E3. apply bind_inv in E3 as (b & s1 & _ & Ee). apply ret_inv in Ee as [<- _]. apply zs_new_sound. }
  change (ZIP64_EOCDL_LENGTH + SIGNATURE_LENGTH) with 24.
  destruct (q <? 24) eqn:Eq.
  { right; right; left. exists e, k. split; [|auto]. erewrite bind_ok; [|reflexivity].
    apply (directory_pos cfg (combined_from e) false). }
  unfold bind at 1. rewrite (bind_ok _ _ _ _ _ (seek_start_src (q - 24) d p3)).
  unfold bind at 1. destruct (insens_src z64_eocdl_try_from_reader d (q - 24) ltac:(auto with insens)) as (r4 & p4 & E4).
  clear T. pose proof (tamer_z64_eocdl_try cfg d (q - 24)) as T.
  rewrite E4 in *. destruct r4 as [[loc|]|er|pn]; [| |apply case_err|exact (case_panic _ _ _ _ _ T eq_refl)].
  - assert (OL : occurs (to_le 4 ZIP64_EOCDL_SIGNATURE) d (q - 24)).
    { unfold z64_eocdl_try_from_reader in E4. apply bind_inv in E4 as (b & s1 & H2 & H3).
      apply read_exact_inv in H2 as (-> & Eb & Lb & L). specialize (L ltac:(lia)).
      destruct (from_le b =? ZIP64_EOCDL_SIGNATURE) eqn:Es; [|discriminate].
      apply occurs_iff. rewrite len_to_le. change (N.of_nat 4) with 4. split; [lia|].
      apply N.eqb_eq in Es. rewrite <- Es, <- Eb. replace 4%nat with (length b) by (unfold len in Lb; lia).
      symmetry. apply to_from_le. }
    clear T. unfold bind at 1. unfold lift at 1. pose proof (uadd_tamer cfg (zl_relative_offset loc) SIGNATURE_LENGTH) as T.
    destruct (uadd cfg (zl_relative_offset loc) SIGNATURE_LENGTH) as [a|er|pn];
      [|apply case_err|exact (case_panic _ _ _ _ _ T eq_refl)].
    rewrite (bind_ok _ _ _ _ _ (seek_start_src a d p4)).
    clear T. pose proof (tamer_z64_eocdr_from_reader cfg d a) as T.
    unfold bind at 1. destruct (insens_src z64_eocdr_from_reader d a ltac:(auto with insens)) as (r5 & p5 & E5).
    rewrite E5 in *. destruct r5 as [z|er|pn]; [|apply case_err|exact (case_panic _ _ _ _ _ T eq_refl)].
    right; right; right. exists e, z, k. split; [|eauto]. apply (directory_pos cfg (combine e z) true).
  - right; right; left. exists e, k. split; [|auto]. apply (directory_pos cfg (combined_from e) false).
Qed.

Lemma file_calm_cases cfg s : fst (file cfg s) = fst (file cfg (src (s_data s) (s_pos s))) \/ exists e, fst (file cfg s) = Err e.
Proof.
  pose proof (insens_file cfg s) as I. unfold agrees in I. fold (calm s).
  destruct (file cfg s) as [r s']. destruct (file cfg (calm s)) as [r0 s0].
  destruct I as (_ & _ & _ & used & Hu & [(_ & -> & _)|(pre & c & _ & _ & ->)]); cbn [fst]; eauto.
Qed.

Lemma file_panics cfg s p : fst (file cfg s) = Panic p ->
  (p = POverflow /\ overflow_checks cfg = true) \/
  (p = PCapacity /\ (isize_max < 65535 * entry_mem_size cfg \/
     exists q, found_at (le 4 0x07064b50) (s_data s) q)).
Proof.
  intro H. destruct (file_calm_cases cfg s) as [E|(e & E)]; [|congruence]. rewrite H in E.
  pose proof (file_cases cfg (s_data s) (s_pos s)) as C. rewrite <- E in C.
  destruct C as [(e & C)|[(C & O)|[(e & k & C & B & _)|(e & z & k & C & _ & q & O)]]]; [discriminate|injection C as ->; auto| |].
  - destruct (directory_tame cfg (combined_from e) false k (s_data s) 0) as [T1 T2]. rewrite <- C in *.
    destruct p; cbn in T1; try easy; [now left|right]. split; [easy|]. left.
    destruct (N.le_gt_cases (65535 * entry_mem_size cfg) isize_max) as [Hle|]; [exfalso|easy].
    cbn [combined_from cb_num_entries] in T2.
    assert (e_num_of_entries e * entry_mem_size cfg <= isize_max).
    { etransitivity; [|exact Hle]. apply N.mul_le_mono_r. lia. }
    destruct (T2 ltac:(easy)). discriminate.
  - destruct (directory_tame cfg (combine e z) true k (s_data s) 0) as [T1 _]. rewrite <- C in *.
    destruct p; cbn in T1; try easy; [now left|right]. split; [easy|]. right. exists q. rewrite le_to_le. exact O.
Qed.

(** ** Every string the reader hands out is sound *)
Lemma reads_as_sound mk flag xs basic z : reads_as mk flag xs basic z -> zs_sound z.
Proof.
  intro H. unfold zs_sound. destruct H; cbn [zs_enc zs_raw]; try discriminate; intros _; try assumption.
  apply utf8_valid_iff, ascii_utf8. now apply is_ascii_iff.
Qed.
Definition entry_sound (e : stored_entry) : Prop :=
  zs_sound (en_filename (st_entry e)) /\ zs_sound (en_comment (st_entry e)).
Lemma cd_view_sound cfg h name x k e : cd_view cfg h name x k = Ok e -> entry_sound e.
Proof.
  unfold cd_view. intro H. apply rbind_ok in H as (c & _ & H). apply rbind_ok in H as (xs & _ & H). okinv H. subst e.
  split; cbn [cd_entry_view st_entry en_filename en_comment].
  - eapply reads_as_sound, detect_filename_spec.
  - eapply reads_as_sound, detect_comment_spec.
Qed.
Lemma cd_loop_sound cfg d : forall f n p es s', cd_loop cfg f n (src d p) = (Ok es, s') ->
  Forall entry_sound es /\ len es = n.
Proof.
  induction f as [|f IH]; intros n p es s' H; [discriminate|]. cbn [cd_loop] in H.
  destruct (n =? 0) eqn:E.
  { apply ret_inv in H as [<- _]. split; [constructor|]. change (len (@nil stored_entry)) with 0. lia. }
  apply bind_inv in H as (e & s1 & H1 & H). apply cd_record_inv in H1 as (hb & nm & x & k & p' & -> & _ & _ & _ & _ & _ & _ & V).
  apply bind_inv in H as (r & s2 & H1 & H). apply ret_inv in H as [<- _]. apply IH in H1 as [F L].
  split; [constructor; [eapply cd_view_sound; eauto|easy]|]. rewrite len_cons, L. lia.
Qed.
Lemma directory_sound cfg c z k d f : zs_sound k -> fst (directory cfg c z k (src d 0)) = Ok f ->
  Forall entry_sound (f_entries f) /\ zs_sound (f_comment f) /\ len (f_entries f) = cb_num_entries c.
Proof.
  intros Hk. unfold directory. destruct (_ || _); [discriminate|]. rewrite (bind_ok _ _ _ _ _ (seek_start_src _ d 0)).
  unfold cd. intro H.
  destruct ((entries <- (lift (with_capacity cfg (cb_num_entries c)) ;;; (s <- get ;; cd_loop cfg (S (length (s_data s))) (cb_num_entries c))) ;;
    ret {| f_entries := entries; f_zip64 := z; f_comment := k |}) (src d (cb_offset c))) as [r s'] eqn:E.
  cbn [fst] in H. subst r. apply bind_inv in E as (es & s1 & H1 & H2). apply ret_inv in H2 as [<- _].
  apply bind_inv in H1 as (u & s2 & H1 & H2). apply lift_inv in H1 as [_ ->].
  change (cd_loop cfg (S (length d)) (cb_num_entries c) (src d (cb_offset c)) = (Ok es, s1)) in H2.
  apply cd_loop_sound in H2 as [F L]. cbn [f_entries f_comment]. auto.
Qed.
Lemma file_sound cfg s f : fst (file cfg s) = Ok f -> Forall entry_sound (f_entries f) /\ zs_sound (f_comment f).
Proof.
  intro H. destruct (file_calm_cases cfg s) as [E|(e & E)]; [|congruence]. rewrite H in E.
  pose proof (file_cases cfg (s_data s) (s_pos s)) as C. rewrite <- E in C.
  destruct C as [(e & C)|[(C & O)|[(e & k & C & B & S)|(e & z & k & C & S & _)]]]; try discriminate;
  symmetry in C; apply directory_sound in C as (F & K & _); auto.
Qed.
