(** Proofs about smaller builds. *)
From Verif Require Import Base BaseFacts SpecFormat ZString ZDate Headers HeadersFacts ExtraField Entry IO IOFacts Locator LocatorFacts Reader ReaderFacts TameFacts
  EntryReader StreamReader Features SpecFeatures.

Definition has (b : build) (m : compression) : bool := match m with Stored => true | _ => b_has b m end.
Lemma has_iff b m : has b m = true <-> compiled b m.
Proof. unfold compiled. destruct m; cbn; intuition discriminate. Qed.
Lemma has_not b m : has b m = false <-> ~ compiled b m.
Proof. rewrite <- has_iff. destruct (has b m); intuition discriminate. Qed.
Lemma narrow_method b v : b_compression_try_from b v =
  match compression_try_from v with
  | Ok c => if has b c then Ok c else Err (CompressionNotSupported v)
  | x => x
  end.
Proof.
  unfold b_compression_try_from, compression_try_from.
  repeat (match goal with |- context[match ?x with _ => _ end] => is_var x; destruct x end); try reflexivity; cbn [has]; now destruct (b_has b _).
Qed.

Definition missing {A} (r : res A * source) : Prop := exists v, fst r = Err (CompressionNotSupported v).
Definition method (e : stored_entry) : compression := en_compression (st_entry e).

(** stepping two runs that begin alike *)
Lemma bind_at {S A B} (m : SM S A) (f : A -> SM S B) s :
  bind m f s = match m s with (Ok a, s') => f a s' | (Err e, s') => (Err e, s') | (Panic p, s') => (Panic p, s') end.
Proof. unfold bind. now destruct (m s) as [[a|e|p] s']. Qed.

Ltac together := rewrite !bind_at; match goal with |- context[match ?m ?s with (_, _) => _ end] =>
  destruct (m s) as [[?|?|?] ?]; [|left; reflexivity|left; reflexivity] end.

Lemma record_narrow b cfg s :
  match cd_record cfg s with
  | (Ok e, s') => if has b (method e) then b_cd_record b cfg s = (Ok e, s')
                  else fst (b_cd_record b cfg s) = Err (CompressionNotSupported (compression_to (method e)))
  | other => b_cd_record b cfg s = other \/ missing (b_cd_record b cfg s)
  end.
Proof.
  unfold cd_record, b_cd_record. cbv zeta. together. together. together.
  rewrite !bind_at. unfold lift at 1 3 4 5 7. rewrite narrow_method.
  destruct (compression_try_from _) as [c|e|p] eqn:C; [|now left|now left].
  destruct (has b c) eqn:H.
  - match goal with |- context[bind ?m ?f ?q] => destruct (bind m f q) as [[e|e|p] s'] eqn:R end; [|now left|now left].
    replace (method e) with c; [now rewrite H|].
    apply bind_inv in R as (x1 & z1 & _ & R). apply bind_inv in R as (x2 & z2 & _ & R). apply bind_inv in R as (x3 & z3 & _ & R).
    destruct (get_combined_sizes _ _ _). apply ret_inv in R as [<- _]. reflexivity.
  - match goal with |- context[bind ?m ?f ?q] => destruct (bind m f q) as [[e|e|p] s'] eqn:R end; [|right; eexists; reflexivity|right; eexists; reflexivity].
    replace (method e) with c.
    + rewrite H. cbn [fst]. now rewrite <- (compression_from_ok _ _ C).
    + apply bind_inv in R as (x1 & z1 & _ & R). apply bind_inv in R as (x2 & z2 & _ & R). apply bind_inv in R as (x3 & z3 & _ & R).
      destruct (get_combined_sizes _ _ _). apply ret_inv in R as [<- _]. reflexivity.
Qed.

Definition lacks (b : build) (e : stored_entry) : bool := negb (has b (method e)).
Lemma find_missing b l e : find (lacks b) l = Some e -> first_missing b l (method e).
Proof.
  induction l as [|x l IH]; [discriminate|]. cbn [find]. unfold lacks at 1. destruct (has b (method x)) eqn:H; cbn [negb]; intro F.
  - destruct (IH F) as (pre & y & post & E & Q & M & N). exists (x :: pre), y, post. subst l. repeat split; auto.
    constructor; [now apply has_iff|easy].
  - inversion F; subst x. exists [], e, l. repeat split; auto. now apply has_not.
Qed.
Lemma missing_find b l m : first_missing b l m -> exists e, find (lacks b) l = Some e /\ method e = m.
Proof.
  intros (pre & e & post & -> & Q & -> & N). exists e. split; [|reflexivity].
  induction Q as [|x pre Hx Q IH]; cbn [app find]; unfold lacks at 1.
  - apply has_not in N. unfold method. now rewrite N.
  - apply has_iff in Hx. unfold method. now rewrite Hx.
Qed.
Lemma find_none b l : find (lacks b) l = None <-> Forall (fun x => compiled b (en_compression (st_entry x))) l.
Proof.
  induction l as [|x l IH]; [now split; constructor|]. cbn [find]. unfold lacks at 1. destruct (has b (method x)) eqn:H; cbn [negb].
  - rewrite IH. apply has_iff in H. split; [now constructor|now inversion 1].
  - apply has_not in H. split; [discriminate|]. inversion 1. now contradict H.
Qed.

Lemma loop_narrow b cfg : forall f n s,
  match cd_loop cfg f n s with
  | (Ok es, s') => match find (lacks b) es with
                   | None => b_cd_loop b cfg f n s = (Ok es, s')
                   | Some e => fst (b_cd_loop b cfg f n s) = Err (CompressionNotSupported (compression_to (method e)))
                   end
  | other => b_cd_loop b cfg f n s = other \/ missing (b_cd_loop b cfg f n s)
  end.
Proof.
  induction f as [|f IH]; intros n s; cbn [cd_loop b_cd_loop]; [now left|]. destruct (n =? 0); [reflexivity|].
  pose proof (record_narrow b cfg s) as R. rewrite !bind_at. destruct (cd_record cfg s) as [[e|e|p] s'].
  - specialize (IH (n - 1) s'). rewrite !bind_at. destruct (has b (method e)) eqn:H.
    + rewrite R. rewrite !bind_at. destruct (cd_loop cfg f (n - 1) s') as [[es|x|p] s2].
      * unfold ret at 1. cbn [find]. unfold lacks at 1. rewrite H. cbn [negb].
        destruct (find (lacks b) es); [|now rewrite IH].
        destruct (b_cd_loop b cfg f (n - 1) s') as [[?|?|?] ?]; cbn [fst] in IH |- *; congruence.
      * destruct IH as [IH|[v IH]]; [left; now rewrite IH|right; exists v].
        destruct (b_cd_loop b cfg f (n - 1) s') as [[?|?|?] ?]; cbn [fst] in IH |- *; congruence.
      * destruct IH as [IH|[v IH]]; [left; now rewrite IH|right; exists v].
        destruct (b_cd_loop b cfg f (n - 1) s') as [[?|?|?] ?]; cbn [fst] in IH |- *; congruence.
    + assert (Q : forall k : stored_entry -> SM source (list stored_entry), fst (match b_cd_record b cfg s with (Ok a, s') => k a s' | (Err e, s') => (Err e, s') | (Panic p, s') => (Panic p, s') end)
        = Err (CompressionNotSupported (compression_to (method e)))).
      { intro k. destruct (b_cd_record b cfg s) as [[?|?|?] ?]; cbn [fst] in R |- *; congruence. }
      destruct (cd_loop cfg f (n - 1) s') as [[es|x|p] s2]; [|right; eexists; apply Q|right; eexists; apply Q].
      unfold ret at 1. cbn [find]. unfold lacks at 1. rewrite H. cbn [negb]. apply Q.
  - destruct R as [R|[v R]]; [left; now rewrite R|right; exists v].
    destruct (b_cd_record b cfg s) as [[?|?|?] ?]; cbn [fst] in R |- *; congruence.
  - destruct R as [R|[v R]]; [left; now rewrite R|right; exists v].
    destruct (b_cd_record b cfg s) as [[?|?|?] ?]; cbn [fst] in R |- *; congruence.
Qed.
Lemma loop_count cfg : forall f n s es s', cd_loop cfg f n s = (Ok es, s') -> len es = n.
Proof.
  induction f as [|f IH]; intros n s es s' H; [discriminate|]. cbn [cd_loop] in H.
  destruct (n =? 0) eqn:E; [apply ret_inv in H as [<- _]; change (len (@nil stored_entry)) with 0; lia|].
  apply bind_inv in H as (e & s1 & _ & H). apply bind_inv in H as (r & s2 & H1 & H). apply ret_inv in H as [<- _]. apply IH in H1.
  rewrite len_cons. lia.
Qed.
(** what the smaller build says to [n] entries [es] *)
Definition told (b : build) (cfg : config) (es : list stored_entry) : option (res (list stored_entry)) :=
  if b_usize_max b <? len es then Some (Err TargetZip64NotSupported)
  else if b_usize_max b <? 2 * (len es * entry_mem_size cfg) then Some (Panic PCapacity)
  else match find (lacks b) es with
       | Some e => Some (Err (CompressionNotSupported (compression_to (method e))))
       | None => None
       end.
Definition refusal {A} (r : res A) : Prop :=
  r = Err TargetZip64NotSupported \/ r = Panic PCapacity \/ exists v, r = Err (CompressionNotSupported v).
Lemma cd_narrow b cfg n s : b_usize_max b <= usize_max ->
  match cd cfg n s with
  | (Ok es, s') => match told b cfg es with Some r => fst (b_cd b cfg n s) = r | None => b_cd b cfg n s = (Ok es, s') end
  | other => b_cd b cfg n s = other \/ refusal (fst (b_cd b cfg n s))
  end.
Proof.
  intro U. unfold cd, b_cd. rewrite !bind_at. unfold lift, with_capacity.
  destruct (n * entry_mem_size cfg <=? isize_max) eqn:C.
  2:{ destruct (b_usize_max b <? n); [right; left; reflexivity|]. rewrite bind_at. unfold lift, b_with_capacity, b_isize_max.
      unfold usize_max, isize_max in *.
      replace (_ <=? _) with false by (symmetry; apply N.leb_gt; lia). now left. }
  rewrite bind_at. unfold get. pose proof (loop_narrow b cfg (S (length (s_data s))) n s) as L.
  destruct (cd_loop cfg (S (length (s_data s))) n s) as [[es|e|p] s'] eqn:R.
  - apply loop_count in R. subst n. unfold told. destruct (b_usize_max b <? len es) eqn:B; [reflexivity|]. rewrite bind_at. unfold lift, b_with_capacity, b_isize_max.
    destruct (b_usize_max b <? 2 * (len es * entry_mem_size cfg)) eqn:D.
    + replace (_ <=? _) with false by (symmetry; apply N.leb_gt; lia). reflexivity.
    + replace (_ <=? _) with true by (symmetry; apply N.leb_le; lia). rewrite bind_at. destruct (find (lacks b) es); exact L.
  - destruct (b_usize_max b <? n); [right; left; reflexivity|]. rewrite bind_at. unfold lift, b_with_capacity.
    destruct (_ <=? b_isize_max b); [|right; right; left; reflexivity]. rewrite bind_at. destruct L as [L|L]; [now left|right; right; right; exact L].
  - destruct (b_usize_max b <? n); [right; left; reflexivity|]. rewrite bind_at. unfold lift, b_with_capacity.
    destruct (_ <=? b_isize_max b); [|right; right; left; reflexivity]. rewrite bind_at. destruct L as [L|L]; [now left|right; right; right; exact L].
Qed.
Definition carry {A B} (r : res A) (x : B) : res B := match r with Ok _ => Ok x | Err e => Err e | Panic p => Panic p end.
Lemma told_no b cfg es r : told b cfg es <> Some (Ok r).
Proof. unfold told. destruct (_ <? _); [discriminate|]. destruct (_ <? _); [discriminate|]. destruct (find _ es); discriminate. Qed.
Lemma file_narrow b cfg s : b_usize_max b <= usize_max ->
  match file cfg s with
  | (Ok f, s') => match told b cfg (f_entries f) with Some r => fst (b_file b cfg s) = carry r f | None => b_file b cfg s = (Ok f, s') end
  | other => b_file b cfg s = other \/ refusal (fst (b_file b cfg s))
  end.
Proof.
  intro U. unfold file, b_file. together. together. together. together.
  together.
  match goal with x : (combined * bool)%type |- _ => destruct x as [c z] end. destruct (_ || _); [now left|]. together.
  rewrite !bind_at. match goal with |- context[cd cfg ?n ?q] => pose proof (cd_narrow b cfg n q U) as L; destruct (cd cfg n q) as [[es|e|p] s'] end.
  - unfold ret at 1. cbn [f_entries]. destruct (told b cfg es) as [r|] eqn:T.
    + destruct (b_cd b cfg _ _) as [[?|?|?] ?]; cbn [fst] in L; subst r; [now apply told_no in T|reflexivity|reflexivity].
    + rewrite L. reflexivity.
  - destruct L as [L|L]; [rewrite L; now left|]. right.
    destruct (b_cd b cfg _ _) as [[?|?|?] ?]; cbn [fst] in L |- *; unfold refusal in *; destruct L as [L|[L|[v L]]]; try discriminate L;
      inversion L; eauto.
  - destruct L as [L|L]; [rewrite L; now left|]. right.
    destruct (b_cd b cfg _ _) as [[?|?|?] ?]; cbn [fst] in L |- *; unfold refusal in *; destruct L as [L|[L|[v L]]]; try discriminate L;
      inversion L; eauto.
Qed.

(** the whole build is the model of Reader.v *)
Lemma whole_has m : has whole_build m = true.
Proof. now destruct m. Qed.
Lemma whole_lacks l : find (lacks whole_build) l = None.
Proof. apply find_none. apply Forall_forall. intros x _. now right. Qed.
Lemma whole_method v : b_compression_try_from whole_build v = compression_try_from v.
Proof. rewrite narrow_method. destruct (compression_try_from v); [now rewrite whole_has|reflexivity|reflexivity]. Qed.
Lemma whole_record cfg s : b_cd_record whole_build cfg s = cd_record cfg s.
Proof. reflexivity. Qed.
Lemma whole_loop cfg : forall f n s, b_cd_loop whole_build cfg f n s = cd_loop cfg f n s.
Proof.
  induction f as [|f IH]; intros n s; [reflexivity|]. cbn [cd_loop b_cd_loop]. destruct (n =? 0); [reflexivity|].
  rewrite !bind_at, whole_record. destruct (cd_record cfg s) as [[?|?|?] ?]; try reflexivity. now rewrite !bind_at, IH.
Qed.
Lemma whole_capacity cfg n : b_with_capacity whole_build cfg n = with_capacity cfg n.
Proof. unfold b_with_capacity, with_capacity. replace (b_isize_max whole_build) with isize_max by (vm_compute; reflexivity). reflexivity. Qed.
Lemma whole_cd cfg n s : n < 2 ^ 64 -> b_cd whole_build cfg n s = cd cfg n s.
Proof.
  intro H. unfold b_cd, cd. cbn [b_usize_max whole_build]. change (2 ^ 64) with 18446744073709551616 in H.
  replace (_ <? n) with false by (symmetry; apply N.ltb_ge; lia). rewrite !bind_at.
  rewrite whole_capacity. destruct (lift (with_capacity cfg n) s) as [[?|?|?] ?]; try reflexivity.
  rewrite !bind_at. unfold get. apply whole_loop.
Qed.
Lemma sub_bound a b v : from_le (sub a b v) < 256 ^ N.of_nat (b - a).
Proof.
  eapply N.lt_le_trans; [apply from_le_bound|]. apply N.pow_le_mono_r; [lia|]. unfold sub, len. rewrite ?skipn_length, ?firstn_length, ?skipn_length. lia.
Qed.
Lemma whole_file cfg s : b_file whole_build cfg s = file cfg s.
Proof.
  unfold file, b_file. rewrite !bind_at. destruct (eocdr_locate s) as [[q|?|?] s1]; try reflexivity.
  rewrite !bind_at. destruct (seek_start q s1) as [[?|?|?] s2]; try reflexivity.
  rewrite !bind_at. destruct (eocdr_from_reader s2) as [[e|?|?] s3] eqn:RE; try reflexivity.
  assert (BE : e_num_of_entries e < 2 ^ 64).
  { unfold eocdr_from_reader in RE. apply bind_inv in RE as (b & s' & _ & RE). apply ret_inv in RE as [<- _].
    cbn [e_num_of_entries eocdr_from]. eapply N.lt_le_trans; [apply sub_bound|]. vm_compute. discriminate. }
  rewrite !bind_at. destruct (read_string _ _ s3) as [[k|?|?] s4]; try reflexivity.
  rewrite !bind_at. match goal with |- match ?r with _ => _ end = _ => destruct r as [[[c z]|?|?] s5] eqn:RC end; try reflexivity.
  assert (BC : cb_num_entries c < 2 ^ 64).
  { destruct (q <? _); [apply ret_inv in RC as [RC _]; inversion RC; exact BE|].
    apply bind_inv in RC as (? & ? & _ & RC). apply bind_inv in RC as (o & ? & _ & RC). destruct o as [l|].
    - apply bind_inv in RC as (? & ? & _ & RC). apply bind_inv in RC as (? & ? & _ & RC). apply bind_inv in RC as (ze & ? & RZ & RC).
      apply ret_inv in RC as [RC _]. inversion RC. cbn [combine cb_num_entries combined_from].
      destruct (_ =? 65535); [|exact BE]. unfold z64_eocdr_from_reader in RZ. apply bind_inv in RZ as (b & s' & _ & RZ). apply ret_inv in RZ as [<- _].
      cbn [z_num_entries z64_eocdr_from]. eapply N.lt_le_trans; [apply sub_bound|]. vm_compute. discriminate.
    - apply ret_inv in RC as [RC _]. inversion RC. exact BE. }
  destruct (_ || _); [reflexivity|]. rewrite !bind_at. destruct (seek_start (cb_offset c) s5) as [[?|?|?] s6]; try reflexivity.
  rewrite !bind_at. now rewrite whole_cd.
Qed.

(** local headers *)
Lemma lfh_narrow b cfg s :
  match lfh_read cfg s with
  | (Ok None, s') => b_lfh_read b cfg s = (Ok None, s')
  | (Ok (Some e), s') => if has b (en_compression e) then b_lfh_read b cfg s = (Ok (Some e), s')
                         else fst (b_lfh_read b cfg s) = Err (CompressionNotSupported (compression_to (en_compression e)))
  | other => b_lfh_read b cfg s = other \/ missing (b_lfh_read b cfg s)
  end.
Proof.
  unfold lfh_read, b_lfh_read. together. cbv zeta. destruct (_ =? CDH_SIGNATURE); [reflexivity|]. destruct (negb _); [now left|].
  together. together. rewrite !bind_at. unfold lift at 1 3 4 5 7 9. rewrite narrow_method.
  destruct (compression_try_from _) as [c|e|p] eqn:C; [|now left|now left].
  match goal with |- context[bind ?m ?f ?q] => destruct (bind m f q) as [[o|e|p] s'] eqn:R end.
  2,3: destruct (has b c); [now left|right; eexists; reflexivity].
  assert (K : exists e, o = Some e /\ en_compression e = c).
  { apply bind_inv in R as (x1 & z1 & _ & R). apply bind_inv in R as (x2 & z2 & _ & R). destruct (get_combined_sizes _ _ _).
    destruct (_ && _); [discriminate R|]. destruct (gp_encrypted _); [discriminate R|]. apply ret_inv in R as [<- _]. eexists. split; reflexivity. }
  destruct K as (e & -> & <-). destruct (has b (en_compression e)); [exact R|]. cbn [fst]. now rewrite <- (compression_from_ok _ _ C).
Qed.
Lemma whole_lfh cfg s : b_lfh_read whole_build cfg s = lfh_read cfg s.
Proof. reflexivity. Qed.

(** the statements of the properties *)
Lemma opens_iff b cfg s f s' : b_usize_max b <= usize_max ->
  b_file b cfg s = (Ok f, s') <->
  file cfg s = (Ok f, s') /\ countable b (len (f_entries f)) /\ holdable b cfg (len (f_entries f)) /\
  Forall (fun e => compiled b (en_compression (st_entry e))) (f_entries f).
Proof.
  intro U. pose proof (file_narrow b cfg s U) as L. split.
  - intro H. destruct (file cfg s) as [[g|e|p] s''].
    + destruct (told b cfg (f_entries g)) as [r|] eqn:T.
      * rewrite H in L. cbn [fst] in L. destruct r; try discriminate L. now apply told_no in T.
      * rewrite H in L. inversion L; subst. split; [reflexivity|]. unfold told in T. unfold countable, holdable.
        destruct (_ <? _) eqn:A in T; [discriminate|]. destruct (_ <? _) eqn:B in T; [discriminate|].
        destruct (find _ _) eqn:F in T; [discriminate|]. apply find_none in F. split; [lia|]. split; [lia|exact F].
    + rewrite H in L. destruct L as [L|[L|[L|[v L]]]]; discriminate L.
    + rewrite H in L. destruct L as [L|[L|[L|[v L]]]]; discriminate L.
  - intros (H & A & B & F). rewrite H in L. apply find_none in F. unfold told in L. unfold countable, holdable in *.
    replace (_ <? len _) with false in L by (symmetry; apply N.ltb_ge; exact A).
    replace (_ <? 2 * _) with false in L by (symmetry; apply N.ltb_ge; exact B). rewrite F in L. exact L.
Qed.
Lemma refused_how b cfg s f : b_usize_max b <= usize_max -> fst (file cfg s) = Ok f ->
  (~ countable b (len (f_entries f)) -> fst (b_file b cfg s) = Err TargetZip64NotSupported) /\
  (countable b (len (f_entries f)) -> ~ holdable b cfg (len (f_entries f)) -> fst (b_file b cfg s) = Panic PCapacity) /\
  (forall m, countable b (len (f_entries f)) -> holdable b cfg (len (f_entries f)) -> first_missing b (f_entries f) m ->
     fst (b_file b cfg s) = Err (CompressionNotSupported (compression_to m))).
Proof.
  intros U H. pose proof (file_narrow b cfg s U) as L. destruct (file cfg s) as [r s'']. cbn [fst] in H. subst r. unfold told, countable, holdable in *.
  repeat split.
  - intro A. replace (_ <? len _) with true in L by (symmetry; apply N.ltb_lt; lia). exact L.
  - intros A B. replace (_ <? len _) with false in L by (symmetry; apply N.ltb_ge; lia).
    replace (_ <? 2 * _) with true in L by (symmetry; apply N.ltb_lt; lia). exact L.
  - intros m A B F. replace (_ <? len _) with false in L by (symmetry; apply N.ltb_ge; lia).
    replace (_ <? 2 * _) with false in L by (symmetry; apply N.ltb_ge; lia).
    apply missing_find in F as (e & F & <-). rewrite F in L. exact L.
Qed.
Lemma stream_iff b cfg s r s' : b_stream_next b cfg s = (Ok r, s') <->
  stream_next cfg s = (Ok r, s') /\ match r with Some x => compiled b (en_compression (rd_entry x)) | None => True end.
Proof.
  pose proof (lfh_narrow b cfg s) as L. unfold stream_next, b_stream_next. destruct (lfh_read cfg s) as [[[e|]|e|p] s''].
  - destruct (has b (en_compression e)) eqn:H.
    + rewrite L. apply has_iff in H. split; [|tauto]. intro E. split; [exact E|]. inversion E. exact H.
    + apply has_not in H. split.
      * intro E. destruct (b_lfh_read b cfg s) as [[[?|]|?|?] ?]; cbn [fst] in L; discriminate.
      * intros [E C]. inversion E; subst. now contradict H.
  - rewrite L. split; [|tauto]. intro E. split; [exact E|]. now inversion E.
  - split; [|intros [E _]; discriminate E]. intro E. destruct L as [L|[v L]]; [now rewrite L in E|].
    destruct (b_lfh_read b cfg s) as [[[?|]|?|?] ?]; cbn [fst] in L; discriminate.
  - split; [|intros [E _]; discriminate E]. intro E. destruct L as [L|[v L]]; [now rewrite L in E|].
    destruct (b_lfh_read b cfg s) as [[[?|]|?|?] ?]; cbn [fst] in L; discriminate.
Qed.
Lemma stream_refused b cfg s x : fst (stream_next cfg s) = Ok (Some x) -> ~ compiled b (en_compression (rd_entry x)) ->
  fst (b_stream_next b cfg s) = Err (CompressionNotSupported (compression_to (en_compression (rd_entry x)))).
Proof.
  pose proof (lfh_narrow b cfg s) as L. unfold stream_next, b_stream_next. destruct (lfh_read cfg s) as [[[e|]|e|p] s'']; try discriminate.
  cbn [fst]. intros E C. inversion E; subst x. cbn [rd_entry] in *. apply has_not in C. rewrite C in L.
  destruct (b_lfh_read b cfg s) as [[[?|]|?|?] ?]; cbn [fst] in *; congruence.
Qed.
Lemma whole_same cfg s : b_file whole_build cfg s = file cfg s /\ b_stream_next whole_build cfg s = stream_next cfg s.
Proof. split; [apply whole_file|]. unfold b_stream_next, stream_next. now rewrite whole_lfh. Qed.
