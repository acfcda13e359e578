(** Proofs about extraction paths. *)
From Verif Require Import Base BaseFacts ZString Headers Entry IO IOFacts Reader ReaderFacts TameFacts LfhFacts EntryReader EntryReaderFacts SpecArchive SpecRead EntryProofs ReadProofs Extract SpecExtract.

Lemma split_pieces l : pieces l (split_slash l).
Proof.
  induction l as [|b l IH]; cbn [split_slash]; [constructor; intros []|].
  destruct (Byte.byte_eq_dec b SLASH) as [->|N].
  - exact (pieces_more [] l _ (fun H => H) IH).
  - destruct IH as [p H|p q k H K].
    + constructor. intros [X|X]; [apply N; now rewrite X|contradiction].
    + apply (pieces_more (b :: p) q k); [|exact K]. intros [X|X]; [apply N; now rewrite X|contradiction].
Qed.
Lemma pieces_nonempty p l : pieces p l -> l <> [].
Proof. now destruct 1. Qed.

Lemma absolute_first p : is_absolute p = true <-> nth_error p 0 = Some x2f.
Proof.
  destruct p as [|b p]; cbn; [easy|]. destruct (Byte.byte_eq_dec b SLASH) as [->|N]; split; try easy.
  intros [= ->]. now elim N.
Qed.
Lemma plain_relative p : ~ In x2f p -> is_absolute p = false.
Proof. destruct p as [|b p]; cbn; [easy|]. destruct (Byte.byte_eq_dec b SLASH) as [->|N]; [|easy]. intros H. elim H. now left. Qed.
Lemma ends_slash p : ends_with_slash p = true -> exists q, p = q ++ [x2f].
Proof.
  unfold ends_with_slash. intros H. exists (rev (tl (rev p))). rewrite <- (rev_involutive p) at 1.
  destruct (rev p) as [|b r]; [easy|]. destruct b; discriminate H || reflexivity.
Qed.
(** what a path ends with is its last piece *)
Lemma pieces_last q l : pieces (q ++ [x2f]) l -> exists k, l = k ++ [[]] /\ k <> [].
Proof.
  remember (q ++ [x2f]) as p eqn:E. intros H. revert q E. induction H as [p H|p r l H K IH]; intros q E.
  - elim H. rewrite E. apply in_app_iff. right. now left.
  - destruct r as [|b r] using rev_ind.
    + inversion K as [p' H' E1 E2|p' q' k' H' K' E1 E2].
      * exists [p]. split; easy.
      * destruct p'; discriminate.
    + clear IHr. rewrite !app_assoc in E. apply app_inj_tail in E as [_ ->].
      destruct (IH r eq_refl) as (k & -> & N). exists (p :: k). split; easy.
Qed.

(** pushing a relative path whose pieces are known adds the steps of that path *)
Lemma walks_app p a q b : walks p a -> walks q b -> walks (p ++ [x2f] ++ q) (a ++ b).
Proof.
  intros (k & H & ->) (m & K & ->). exists (k ++ m). split; [|symmetry; apply filter_app].
  revert K. generalize q m. clear - H. induction H as [p H|p r l H K IH]; intros q m M; [now constructor|].
  rewrite <- !app_assoc. cbn [app]. constructor; [exact H|]. now apply IH.
Qed.
Lemma walks_empty : walks [] [].
Proof. exists [[]]. split; [constructor; intros []|reflexivity]. Qed.
Lemma push_walks p a q b : walks p a -> walks q b -> is_absolute q = false -> walks (path_push p q) (a ++ b).
Proof.
  intros H K R. unfold path_push. rewrite R. destruct (len p =? 0) eqn:Z; cbn [orb].
  - assert (p = []) as -> by (destruct p; [reflexivity|rewrite len_cons in Z; apply N.eqb_eq in Z; lia]). destruct H as (k & H & ->).
    inversion H as [p' H' E1 E2|p' q' k' H' K' E1 E2]; [exact K|destruct p'; discriminate].
  - destruct (ends_with_slash p) eqn:S; [|now apply walks_app].
    apply ends_slash in S as (r & ->). destruct H as (k & H & ->).
    apply pieces_last in H as X. destruct X as (k' & -> & N).
    assert (P : walks r (filter (fun q => negb (idle q)) (k' ++ [[]]))).
    { exists k'. split; [|rewrite filter_app; now rewrite app_nil_r].
      clear - H N. remember (r ++ [x2f]) as p eqn:E. remember (k' ++ [[]]) as l eqn:F. revert r k' E F N.
      induction H as [p H|p q l H K IH]; intros r k' E F N.
      - destruct k' as [|x [|y k']]; discriminate || now elim N.
      - destruct k' as [|x k']; [now elim N|]. cbn in F. injection F as -> ->.
        destruct q as [|b q] using rev_ind.
        + cbn in E. apply app_inj_tail in E as [-> _]. inversion K as [p' H' E1 E2|p' q' k0 H' K' E1 E2].
          * destruct k' as [|y [|z k']]; try discriminate. now constructor.
          * destruct p'; discriminate.
        + clear IHq. rewrite !app_assoc in E. apply app_inj_tail in E as [<- ->].
          destruct k' as [|y k'].
          * cbn in K. inversion K as [p' H' E1 E2|p' q' k0 H' K' E1 E2]; [destruct q; discriminate|].
            apply pieces_nonempty in K'. congruence.
          * rewrite <- app_assoc. constructor; [exact H|]. now apply (IH q (y :: k')). }
    rewrite <- app_assoc. now apply walks_app.
Qed.
Lemma push_first p q : is_absolute q = false -> is_absolute (path_push p q) = is_absolute p.
Proof.
  intros Q. unfold path_push. rewrite Q. destruct p as [|b p]; [exact Q|].
  now destruct ((len (b :: p) =? 0) || ends_with_slash (b :: p)).
Qed.

Definition named (l : list bytes) : list bytes := filter (fun q => negb (idle q)) l.
Lemma plain_walks x : ~ In x2f x -> walks x (named [x]).
Proof. intros N. exists [x]. split; [now constructor|reflexivity]. Qed.
Lemma collect_walks l : Forall (fun x => ~ In x2f x) l -> forall p a, walks p a ->
  walks (fold_left path_push l p) (a ++ named l) /\ is_absolute (fold_left path_push l p) = is_absolute p.
Proof.
  induction 1 as [|x l N F IH]; intros p a H; cbn [fold_left].
  - unfold named. cbn. now rewrite app_nil_r.
  - change (named (x :: l)) with (named ([x] ++ l)). unfold named. rewrite filter_app, app_assoc. fold (named [x]). fold (named l).
    assert (R : is_absolute x = false) by now apply plain_relative.
    destruct (IH (path_push p x) (a ++ named [x])) as [A B].
    + apply push_walks; [exact H|now apply plain_walks|exact R].
    + split; [exact A|]. rewrite B. now apply push_first.
Qed.
Lemma sane_walks sanitize name : plain_names sanitize ->
  walks (sanitize_file_path sanitize name) (named (map sanitize (split_slash (replace_backslash name)))) /\
  is_absolute (sanitize_file_path sanitize name) = false.
Proof.
  intros P. apply (collect_walks (map sanitize (split_slash (replace_backslash name))) ltac:(apply Forall_map, Forall_forall; intros x _; apply P) [] [] walks_empty).
Qed.
Lemma walks_total p : exists a, walks p a.
Proof. exists (named (split_slash p)), (split_slash p). split; [apply split_pieces|reflexivity]. Qed.
Lemma target_inside sanitize dir name : plain_names sanitize -> inside dir (target sanitize dir name).
Proof.
  intros P. destruct (sane_walks sanitize name P) as [W R]. destruct (walks_total dir) as (a & A).
  exists a, (named (map sanitize (split_slash (replace_backslash name)))). split; [exact A|]. split; [now apply push_walks|]. split.
  - unfold named. rewrite filter_In, in_map_iff. intros ((x & E & _) & _). now apply (P x).
  - rewrite <- !absolute_first. unfold target, path_join. now rewrite (push_first dir _ R).
Qed.

(** a path has one list of pieces *)
Lemma pieces_split p l : pieces p l -> l = split_slash p.
Proof.
  assert (A : forall x, ~ In x2f x -> split_slash x = [x]).
  { induction x as [|b x IH]; intros N; [reflexivity|]. cbn [split_slash]. destruct (Byte.byte_eq_dec b SLASH) as [->|_].
    - elim N. now left.
    - rewrite IH; [reflexivity|]. intros I. apply N. now right. }
  induction 1 as [p H|p q l H K IH]; [now rewrite A|]. subst l. induction p as [|b p IHp].
  - cbn. reflexivity.
  - cbn [app split_slash]. destruct (Byte.byte_eq_dec b SLASH) as [->|_]; [elim H; now left|].
    cbn [app] in IHp. rewrite <- IHp; [reflexivity|]. intros I. apply H. now right.
Qed.
Lemma walks_unique p a b : walks p a -> walks p b -> a = b.
Proof. intros (k & K & ->) (m & M & ->). now rewrite (pieces_split _ _ K), (pieces_split _ _ M). Qed.

(** ** extraction *)
(** where an entry goes: from the directory down the sanitized parts of its name *)
Lemma replace_pieces p l : parts p l -> pieces (replace_backslash p) l.
Proof.
  assert (A : forall x, ~ In x5c x -> replace_backslash x = x).
  { intros x N. unfold replace_backslash. rewrite <- map_id. apply map_ext_in. intros b I.
    destruct (Byte.byte_eq_dec b BACKSLASH) as [->|_]; [now elim N|reflexivity]. }
  induction 1 as [p H B|p c q l H B C K IH]; [rewrite A by exact B; now constructor|].
  unfold replace_backslash. rewrite !map_app. fold (replace_backslash p). fold (replace_backslash q). rewrite A by exact B.
  assert (E : map (fun b => if Byte.byte_eq_dec b BACKSLASH then SLASH else b) [c] = [x2f]) by (destruct C as [-> | ->]; reflexivity).
  rewrite E. now constructor.
Qed.
Lemma target_where sanitize dir name ps a : plain_names sanitize -> parts name ps -> walks dir a ->
  walks (target sanitize dir name) (a ++ filter (fun q => negb (bytes_eqb q [])) (map sanitize ps)).
Proof.
  intros P K A. destruct (sane_walks sanitize name P) as [W R]. rewrite <- (pieces_split _ _ (replace_pieces _ _ K)) in W.
  assert (E : named (map sanitize ps) = filter (fun q => negb (bytes_eqb q [])) (map sanitize ps)).
  { unfold named. apply filter_ext_in. intros x I. apply in_map_iff in I as (y & <- & _). unfold idle.
    destruct (bytes_eqb (sanitize y) [x2e]) eqn:D; [apply bytes_eqb_eq in D; now elim (proj1 (proj2 (P y)))|now rewrite Bool.orb_false_r]. }
  rewrite <- E. now apply push_walks.
Qed.
Lemma parts_total p : exists l, parts p l.
Proof.
  induction p as [|b p (l & IH)]; [exists [[]]; now constructor|].
  destruct (Byte.byte_eq_dec b x2f) as [->|N]; [exists ([] :: l); now apply (parts_more [] x2f p l); [..|left|]|].
  destruct (Byte.byte_eq_dec b x5c) as [->|M]; [exists ([] :: l); now apply (parts_more [] x5c p l); [..|right|]|].
  destruct IH as [p H B|p c q l H B C K].
  - exists [b :: p]. constructor; now intros [->|I].
  - exists ((b :: p) :: l). apply (parts_more (b :: p) c q l); [now intros [->|I]..|exact C|exact K].
Qed.

Lemma seek_gives e s s' : seek_to_data_offset e s = (Ok tt, s') ->
  s_data s' = s_data s /\ (s_pos s' = data_start (s_data s) (st_file_offset e)).
Proof.
  intros E. assert (I : insens (seek_to_data_offset e)) by auto with insens. specialize (I s). unfold agrees in I.
  rewrite E in I. destruct (seek_closed e (s_data s) (s_pos s)) as (p & Ec & Hp). change (calm s) with (src (s_data s) (s_pos s)) in I. rewrite Ec in I.
  destruct I as (_ & _ & D & u & _ & [(_ & X & C)|(pre & c & _ & _ & X)]); [|discriminate X].
  split; [exact D|]. destruct (data_offset _ _) as [q|x|pn] eqn:O; [|discriminate X|discriminate X].
  specialize (Hp q eq_refl). subst p. apply data_offset_spec in O. subst q. apply (f_equal s_pos) in C. exact C.
Qed.
Lemma seek_data e s : s_data (snd (seek_to_data_offset e s)) = s_data s.
Proof.
  assert (I : insens (seek_to_data_offset e)) by auto with insens. specialize (I s). unfold agrees in I.
  destruct (seek_to_data_offset e s), (seek_to_data_offset e (calm s)). easy.
Qed.

(** what one entry adds *)
Definition one (cd : codec) sanitize dir d (e : stored_entry) (h h' : list action) (fine : bool) : Prop :=
  exists name add, zs_as_str (en_filename (st_entry e)) = Ok name /\ h' = h ++ add /\
    Forall (fun a => acts_on a = target sanitize dir name) add /\
    (fine = true -> if is_file e then exists b, filled add = [(target sanitize dir name, b)] /\ decoded cd (en_compression (st_entry e)) (region d e) = (b, true)
                    else filled add = []).
Lemma dir_is_file e name : zs_as_str (en_filename (st_entry e)) = Ok name ->
  entry_dir (st_entry e) = Ok (negb (is_file e)).
Proof.
  intros N. unfold entry_dir, is_file. rewrite N. cbn [rbind]. f_equal. rewrite negb_involutive. unfold ends_with_slash.
  destruct name as [|b l] using rev_ind; [reflexivity|]. rewrite rev_unit, last_last. now destruct b.
Qed.
Lemma filled_app a b : filled (a ++ b) = filled a ++ filled b.
Proof. apply flat_map_app. Qed.
Lemma unzip_entry_spec cd sanitize t dir f i h s : let '(r, h', s') := unzip_entry cd sanitize t dir f i h s in
  s_data s' = s_data s /\
  match r with Ok _ => exists e, entry_at f i = Some e /\ one cd sanitize dir (s_data s) e h h' true
  | _ => h' = h \/ exists e, entry_at f i = Some e /\ one cd sanitize dir (s_data s) e h h' false end.
Proof.
  unfold unzip_entry. destruct (entry_at f i) as [e|] eqn:E; [|split; [reflexivity|now left]].
  destruct (zs_as_str (en_filename (st_entry e))) as [name|x|x] eqn:N; cbn [expect]; [|split; [reflexivity|now left]..].
  rewrite (dir_is_file e name N). cbn [expect]. unfold seek_reader_at. rewrite E. unfold bind, get, ret.
  pose proof (seek_data e s) as SD. destruct (seek_to_data_offset e s) as [[[]|x|x] s1] eqn:S; cbn [snd] in SD; [|split; [exact SD|now left]..].
  apply seek_gives in S as [D P]. set (r := er_new s1 _ _). assert (R : s_data (er_src r) = s_data s) by exact D.
  assert (Z : h = h ++ []) by now rewrite app_nil_r.
  destruct (is_file e) eqn:F; cbn [negb].
  - set (p := target sanitize dir name). destruct (has_parent p); cbn [negb]; [|split; [exact R|now left]].
    assert (A : forall h1 (g : list action -> res unit * list action * source),
      (if t_parent_is_dir t h p then Ok h else doing t h (MakeParent p)) = Ok h1 -> exists add, h1 = h ++ add /\ Forall (fun a => acts_on a = p) add /\ filled add = []).
    { intros h1 _. destruct (t_parent_is_dir t h p); [intros [= <-]; exists []; repeat split; [exact Z|constructor]|].
      unfold doing. destruct (t_accepts t h (MakeParent p)); [|discriminate]. intros [= <-]. exists [MakeParent p]. repeat split. now repeat constructor. }
    destruct (if t_parent_is_dir t h p then Ok h else doing t h (MakeParent p)) as [h1|x|x] eqn:P1; [|split; [exact R|now left]..].
    destruct (A h1 (fun h => (Ok tt, h, s)) eq_refl) as (add & -> & A1 & A2). clear A.
    assert (O : forall more, Forall (fun a => acts_on a = p) more -> one cd sanitize dir (s_data s) e h ((h ++ add) ++ more) false).
    { intros more M. exists name, (add ++ more). split; [exact N|]. rewrite app_assoc. split; [reflexivity|]. split; [apply Forall_app; now split|discriminate]. }
    unfold doing at 1. destruct (t_accepts t (h ++ add) (CreateNew p)).
    2:{ split; [exact R|]. right. exists e. split; [reflexivity|]. rewrite <- (app_nil_r (h ++ add)). now apply O. }
    pose proof (er_read_to_end_spec cd r) as T. destruct (er_read_to_end cd r) as [x r'].
    assert (R' : s_data (er_src r') = s_data s).
    { destruct T as (u & _ & T). destruct x as [b|[]|]; try easy.
      - destruct T as (_ & [_ _ T _ _ _] & _). congruence.
      - destruct T as [(_ & _ & [_ _ T _ _ _] & _)|(c & pre & b & _ & _ & _ & [_ _ T _ _ _])]; congruence. }
    destruct x as [b|x|x]; [|split; [exact R'|right; exists e; split; [reflexivity|apply O; now repeat constructor]]..].
    unfold doing. destruct (t_accepts t ((h ++ add) ++ [CreateNew p]) (Fill p b)).
    + split; [exact R'|]. exists e. split; [reflexivity|]. exists name, (add ++ [CreateNew p; Fill p b]). split; [exact N|].
      split; [now rewrite <- !app_assoc|]. split; [apply Forall_app; split; [exact A1|now repeat constructor]|]. intros _. rewrite F. exists b.
      split; [rewrite filled_app, A2; reflexivity|]. destruct T as (u & _ & T & _). unfold r in T. rewrite content_new, D, P in T.
      now rewrite region_take.
    + split; [exact R'|]. right. exists e. split; [reflexivity|]. apply O. now repeat constructor.
  - set (p := target sanitize dir name). destruct (t_exists t h p).
    + split; [exact R|]. exists e. split; [reflexivity|]. exists name, []. split; [exact N|]. split; [exact Z|]. split; [constructor|]. intros _. now rewrite F.
    + unfold doing. destruct (t_accepts t h (MakeDirs p)); [|split; [exact R|now left]]. split; [exact R|]. exists e. split; [reflexivity|].
      exists name, [MakeDirs p]. split; [exact N|]. split; [reflexivity|]. split; [now repeat constructor|]. intros _. now rewrite F.
Qed.
Lemma created_app a b : created (a ++ b) = created a ++ created b.
Proof. apply flat_map_app. Qed.

(** the history of a whole extraction *)
Lemma unzip_from_inside cd sanitize t dir f : plain_names sanitize -> forall n i h s, Forall (fun a => inside dir (acts_on a)) h ->
  let '(_, h', _) := unzip_from cd sanitize t dir f i n h s in Forall (fun a => inside dir (acts_on a)) h'.
Proof.
  intros P. induction n as [|n IH]; intros i h s H; cbn [unzip_from]; [exact H|].
  pose proof (unzip_entry_spec cd sanitize t dir f i h s) as U. destruct (unzip_entry cd sanitize t dir f i h s) as [[r h'] s'].
  assert (K : forall e fine, one cd sanitize dir (s_data s) e h h' fine -> Forall (fun a => inside dir (acts_on a)) h').
  { intros e fine (name & add & _ & -> & A & _). apply Forall_app. split; [exact H|]. eapply Forall_impl; [|exact A].
    cbv beta. intros a ->. now apply target_inside. }
  destruct U as [_ U]. destruct r as [u|x|x].
  - destruct U as (e & _ & O). specialize (IH (i + 1) h' s' (K _ _ O)). exact IH.
  - destruct U as [->|(e & _ & O)]; [exact H|exact (K _ _ O)].
  - destruct U as [->|(e & _ & O)]; [exact H|exact (K _ _ O)].
Qed.
Lemma nodup_snoc {A} (l : list A) a : NoDup l -> ~ In a l -> NoDup (l ++ [a]).
Proof. intros H N. apply NoDup_rev in H. rewrite <- (rev_involutive (l ++ [a])). apply NoDup_rev. rewrite rev_unit. constructor; [|exact H]. now rewrite <- in_rev. Qed.
(** nothing is made or filled twice, and only what was made is filled *)
Definition apart (h : list action) : Prop :=
  NoDup (created h) /\ NoDup (map fst (filled h)) /\ incl (map fst (filled h)) (created h).
Lemma apart_other t h a h' : apart h -> match a with MakeDirs _ | MakeParent _ => True | _ => False end -> doing t h a = Ok h' -> apart h'.
Proof.
  intros (A & B & C) O. unfold doing. destruct (t_accepts t h a); [|discriminate]. intros [= <-]. unfold apart. rewrite created_app, filled_app, map_app.
  destruct a; try contradiction; cbn [created filled flat_map map]; rewrite !app_nil_r; now repeat split.
Qed.
Lemma apart_create t h p h' : exclusive t -> apart h -> doing t h (CreateNew p) = Ok h' -> apart h' /\ h' = h ++ [CreateNew p] /\ ~ In p (created h).
Proof.
  intros X (A & B & C). unfold doing. destruct (t_accepts t h (CreateNew p)) eqn:E; [|discriminate]. intros [= <-]. apply X in E.
  split; [|now split]. unfold apart. rewrite created_app, filled_app, map_app. cbn [created filled flat_map map app]. rewrite app_nil_r.
  split; [now apply nodup_snoc|]. split; [exact B|]. intros y Y. apply in_app_iff. left. now apply C.
Qed.
Lemma apart_fill t h p b h' : apart h -> ~ In p (created h) -> doing t (h ++ [CreateNew p]) (Fill p b) = Ok h' -> apart h'.
Proof.
  intros (A & B & C) N. unfold doing. destruct (t_accepts t _ (Fill p b)); [|discriminate]. intros [= <-]. unfold apart.
  rewrite !created_app, !filled_app, !map_app. cbn [created filled flat_map map app fst]. rewrite !app_nil_r.
  split; [now apply nodup_snoc|]. split; [apply nodup_snoc; [exact B|]; intro I; apply N; now apply C|].
  intros y Y. apply in_app_iff in Y as [Y|Y]; apply in_app_iff; [left; now apply C|now right].
Qed.
Lemma unzip_entry_apart cd sanitize t dir f i h s : exclusive t -> apart h ->
  let '(_, h', _) := unzip_entry cd sanitize t dir f i h s in apart h'.
Proof.
  intros X H. unfold unzip_entry. destruct (entry_at f i) as [e|]; [|exact H].
  destruct (expect (zs_as_str _)) as [name|x|x]; [|exact H..]. destruct (expect (entry_dir _)) as [d|x|x]; [|exact H..].
  destruct (seek_reader_at f i s) as [[[r e']|x|x] s1]; [|exact H..]. destruct d.
  - destruct (t_exists t h _); [exact H|]. destruct (doing t h _) as [h1|x|x] eqn:D; [|exact H..]. exact (apart_other t h (MakeDirs _) h1 H I D).
  - destruct (has_parent _); cbn [negb]; [|exact H].
    assert (K : forall h1, (if t_parent_is_dir t h (target sanitize dir name) then Ok h else doing t h (MakeParent (target sanitize dir name))) = Ok h1 -> apart h1).
    { intros h1. destruct (t_parent_is_dir t h _); [now intros [= <-]|]. intros D. exact (apart_other t h (MakeParent _) h1 H I D). }
    destruct (if t_parent_is_dir t h (target sanitize dir name) then _ else _) as [h1|x|x]; [|exact H..]. specialize (K h1 eq_refl).
    destruct (doing t h1 _) as [h2|x|x] eqn:D; [|exact K..]. destruct (apart_create t h1 _ h2 X K D) as (K2 & -> & N).
    destruct (er_read_to_end cd r) as [[b|x|x] r']; [|exact K2..]. destruct (doing t (h1 ++ _) _) as [h3|x|x] eqn:D2; [|exact K2..].
    exact (apart_fill t h1 _ b h3 K N D2).
Qed.
Lemma unzip_from_apart cd sanitize t dir f : exclusive t -> forall n i h s, apart h ->
  let '(_, h', _) := unzip_from cd sanitize t dir f i n h s in apart h'.
Proof.
  intros X. induction n as [|n IH]; intros i h s H; cbn [unzip_from]; [exact H|].
  pose proof (unzip_entry_apart cd sanitize t dir f i h s X H) as U. destruct (unzip_entry cd sanitize t dir f i h s) as [[r h'] s'].
  destruct r as [u|x|x]; [|exact U..]. now apply IH.
Qed.
Lemma unzip_from_files cd sanitize t dir f : forall n i h s, let '(r, h', _) := unzip_from cd sanitize t dir f i n h s in
  (length (f_entries f) <= N.to_nat i + n)%nat -> r = Ok tt -> exists new, filled h' = filled h ++ new /\
    Forall2 (extracted cd sanitize dir (s_data s)) (filter is_file (skipn (N.to_nat i) (f_entries f))) new.
Proof.
  induction n as [|n IH]; intros i h s; cbn [unzip_from].
  - intros L _. exists []. rewrite app_nil_r. split; [reflexivity|]. rewrite skipn_all2 by lia. constructor.
  - pose proof (unzip_entry_spec cd sanitize t dir f i h s) as U. destruct (unzip_entry cd sanitize t dir f i h s) as [[r h'] s'].
    destruct r as [u|x|x]; [|discriminate..]. destruct U as [D (e & E & name & add & N & -> & _ & G)]. specialize (G eq_refl).
    specialize (IH (i + 1) (h ++ add) s'). destruct (unzip_from cd sanitize t dir f (i + 1) n (h ++ add) s') as [[r h2] s2].
    intros L R. destruct (IH ltac:(lia) R) as (new & F & A). rewrite D in A. unfold entry_at in E.
    replace (N.to_nat (i + 1)) with (S (N.to_nat i)) in A by lia.
    assert (K : skipn (N.to_nat i) (f_entries f) = e :: skipn (S (N.to_nat i)) (f_entries f)).
    { clear - E. revert E. generalize (f_entries f) (N.to_nat i). induction l as [|y l IHl]; intros [|k] E; try discriminate E.
      - now injection E as ->.
      - cbn [skipn]. rewrite (IHl k E). reflexivity. }
    rewrite K. cbn [filter]. rewrite filled_app, <- app_assoc in F. destruct (is_file e).
    + destruct G as (b & G & C). exists ([(target sanitize dir name, b)] ++ new). rewrite G in F. split; [exact F|].
      constructor; [|exact A]. exists name. now repeat split.
    + rewrite G in F. exists new. split; [exact F|exact A].
Qed.
Lemma seek_new_data cfg s : s_data (snd (seek_new cfg s)) = s_data s.
Proof.
  unfold seek_new. assert (I : insens (file cfg)) by auto with insens. specialize (I s). unfold agrees in I.
  destruct (file cfg s), (file cfg (calm s)). easy.
Qed.
Lemma unzip_inside cd cfg sanitize t dir s : plain_names sanitize ->
  let '(_, h, _) := unzip_file cd cfg sanitize t dir s in Forall (fun a => inside dir (acts_on a)) h.
Proof.
  intros P. unfold unzip_file. destruct (seek_new cfg s) as [[f|x|x] s1]; [|constructor..]. now apply unzip_from_inside.
Qed.
Lemma unzip_apart cd cfg sanitize t dir s : exclusive t -> let '(_, h, _) := unzip_file cd cfg sanitize t dir s in
  NoDup (created h) /\ NoDup (map fst (filled h)) /\ incl (map fst (filled h)) (created h).
Proof.
  intros X. assert (apart []) by (split; [constructor|split; [constructor|easy]]).
  unfold unzip_file. destruct (seek_new cfg s) as [[f|x|x] s1]; [|assumption..]. now apply unzip_from_apart.
Qed.
Lemma unzip_files cd cfg sanitize t dir s : let '(r, h, _) := unzip_file cd cfg sanitize t dir s in
  r = Ok tt -> exists f, fst (seek_new cfg s) = Ok f /\ Forall2 (extracted cd sanitize dir (s_data s)) (filter is_file (f_entries f)) (filled h).
Proof.
  unfold unzip_file. pose proof (seek_new_data cfg s) as D. destruct (seek_new cfg s) as [[f|x|x] s1]; cbn [snd] in D; [|discriminate..].
  pose proof (unzip_from_files cd sanitize t dir f (length (f_entries f)) 0 [] s1) as U.
  destruct (unzip_from cd sanitize t dir f 0 (length (f_entries f)) [] s1) as [[r h] s2]. intros R. exists f. split; [reflexivity|].
  destruct (U (le_n _) R) as (new & -> & A). rewrite D in A. exact A.
Qed.
