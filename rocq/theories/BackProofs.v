(** Proofs about writing and extracting. *)
From Verif Require Import Base BaseFacts ZString Headers Entry IO IOFacts Reader ReaderFacts TameFacts LfhFacts EntryReader EntryReaderFacts SpecArchive SpecRead EntryProofs ReadProofs
  SpecWrite Writer SpecOrdinary OrdinaryProofs Zip64Proofs RoundTrip AllWork Extract SpecExtract ExtractProofs SpecBack.

(** ** paths *)
Lemma split_plain c : ~ In x2f c -> split_slash c = [c].
Proof. intros N. symmetry. apply pieces_split. now constructor. Qed.
Lemma split_spelled p : p <> [] -> Forall (fun c => ~ In x2f c) p -> split_slash (spelled p) = p.
Proof.
  intros NE F. symmetry. apply pieces_split. induction F as [|c p H F IH]; [now elim NE|].
  destruct p as [|d p]; [now constructor|]. apply pieces_more; [exact H|]. now apply IH.
Qed.
Lemma split_folder p : p <> [] -> Forall (fun c => ~ In x2f c) p -> split_slash (spelled p ++ [x2f]) = p ++ [[]].
Proof.
  intros NE F. symmetry. apply pieces_split. induction F as [|c p H F IH]; [now elim NE|].
  destruct p as [|d p].
  - apply (pieces_more c [] [[]]); [exact H|]. constructor. intros [].
  - cbn [spelled]. rewrite <- !app_assoc. apply pieces_more; [exact H|]. now apply IH.
Qed.
Lemma backslash_plain l : ~ In x5c l -> replace_backslash l = l.
Proof.
  unfold replace_backslash. induction l as [|b l IH]; intros N; [reflexivity|]. cbn [map]. rewrite IH by (intro; apply N; now right).
  destruct (Byte.byte_eq_dec b BACKSLASH) as [->|_]; [|reflexivity]. elim N. now left.
Qed.
Lemma spelled_in b p : In b (spelled p) -> b = x2f \/ exists c, In c p /\ In b c.
Proof.
  induction p as [|c p IH]; [intros []|]. destruct p as [|d p]; [intros I; right; exists c; split; [now left|exact I]|].
  cbn [spelled]. rewrite in_app_iff. intros [I|[I|I]]; [right; exists c; split; [now left|exact I]|now left|].
  destruct (IH I) as [E|(x & X & Y)]; [now left|right; exists x; split; [now right|exact Y]].
Qed.
Lemma ends_last l : ends_with_slash l = Byte.eqb (last l x00) x2f.
Proof. unfold ends_with_slash. destruct l as [|b l] using rev_ind; [reflexivity|]. rewrite rev_unit, last_last. now destruct b. Qed.
(** pushing plain names one after another *)
Lemma push_plain p c : is_absolute c = false -> p <> [] -> ends_with_slash p = false -> path_push p c = p ++ [x2f] ++ c.
Proof.
  intros A NE E. unfold path_push. rewrite A, E, orb_false_r. destruct (len p =? 0) eqn:Z; [|reflexivity].
  destruct p; [now elim NE|]. rewrite len_cons in Z. apply N.eqb_eq in Z. lia.
Qed.
Lemma plain_end c : c <> [] -> ~ In x2f c -> ends_with_slash c = false.
Proof.
  intros NE N. rewrite ends_last. destruct c as [|b c] using rev_ind; [now elim NE|]. rewrite last_last.
  destruct (Byte.eqb b x2f) eqn:E; [|reflexivity]. apply Byte.byte_dec_bl in E. subst b. elim N. apply in_app_iff. right. now left.
Qed.
Lemma ends_app p q : q <> [] -> ends_with_slash (p ++ q) = ends_with_slash q.
Proof. intros NE. rewrite !ends_last. destruct q as [|b q] using rev_ind; [now elim NE|]. now rewrite app_assoc, !last_last. Qed.
Definition simple (c : bytes) : Prop := c <> [] /\ ~ In x2f c.
Lemma spelled_end p : p <> [] -> Forall simple p -> spelled p <> [] /\ ends_with_slash (spelled p) = false.
Proof.
  intros NE F. induction F as [|c p [H1 H2] F IH]; [now elim NE|]. destruct p as [|d p]; [split; [exact H1|now apply plain_end]|].
  destruct (IH ltac:(discriminate)) as [A B]. change (spelled (c :: d :: p)) with (c ++ [x2f] ++ spelled (d :: p)). split; [destruct c; discriminate|].
  rewrite app_assoc, ends_app; [exact B|exact A].
Qed.
Lemma collect_spelled l : Forall simple l -> forall p, p <> [] -> ends_with_slash p = false ->
  fold_left path_push l p = p ++ match l with [] => [] | _ => [x2f] ++ spelled l end.
Proof.
  induction 1 as [|c l [H1 H2] F IH]; intros p NE E; cbn [fold_left]; [now rewrite app_nil_r|].
  rewrite push_plain by (try assumption; now apply plain_relative). rewrite IH.
  - rewrite <- !app_assoc. do 2 f_equal. destruct l; [now rewrite app_nil_r|reflexivity].
  - destruct p; [now elim NE|discriminate].
  - rewrite app_assoc, ends_app; [now apply plain_end|exact H1].
Qed.
Lemma collected l : l <> [] -> Forall simple l -> path_collect l = spelled l.
Proof.
  intros NE F. unfold path_collect. destruct l as [|c l]; [now elim NE|]. inversion F as [|c' l' [H1 H2] F']; subst. cbn [fold_left].
  unfold path_push at 2. rewrite (plain_relative _ H2). change (len [] =? 0) with true. cbn [orb app].
  rewrite collect_spelled; [|exact F'|exact H1|now apply plain_end]. destruct l; [apply app_nil_r|reflexivity].
Qed.
Lemma spelled_relative p : Forall simple p -> is_absolute (spelled p) = false.
Proof.
  intros F. destruct F as [|c p [H1 H2] F]; [reflexivity|]. assert (A : is_absolute c = false) by now apply plain_relative.
  destruct c as [|b c]; [now elim H1|]. destruct p; exact A.
Qed.
Lemma below_push dir q : is_absolute q = false ->
  path_push dir q = match dir with [] => [] | _ => if Byte.eqb (last dir x00) x2f then dir else dir ++ [x2f] end ++ q.
Proof.
  intros A. unfold path_push. rewrite A. destruct dir as [|b dir]; [reflexivity|].
  replace (len (b :: dir) =? 0) with false by (symmetry; apply N.eqb_neq; rewrite len_cons; lia). cbn [orb]. rewrite ends_last.
  destruct (Byte.eqb _ _); [reflexivity|]. now rewrite <- app_assoc.
Qed.
(** where a wish ends up *)
Definition path (dir : bytes) (x : wish) : bytes := match x with AFile p _ => below dir p | AFolder p => below dir p ++ [x2f] end.
Definition name (x : wish) : bytes := match x with AFile p _ => spelled p | AFolder p => spelled p ++ [x2f] end.
Lemma plain_simple sanitize p : Forall (plain_name sanitize) p -> Forall simple p.
Proof. intros F. eapply Forall_impl; [|exact F]. now intros c (A & B & _). Qed.
Lemma target_path sanitize dir x : place x <> [] -> Forall (plain_name sanitize) (place x) -> sanitize [] = [] ->
  target sanitize dir (name x) = path dir x.
Proof.
  intros NE F S0. pose proof (plain_simple _ _ F) as SI.
  assert (NS : Forall (fun c => ~ In x2f c) (place x)) by (eapply Forall_impl; [|exact SI]; now intros c [_ H]).
  assert (BS : ~ In x5c (spelled (place x))).
  { intros I. apply spelled_in in I as [I|(c & C & I)]; [discriminate I|]. rewrite Forall_forall in F. now apply (F c C). }
  assert (ID : map sanitize (place x) = place x).
  { clear - F. induction F as [|c p (_ & _ & _ & E) F IH]; [reflexivity|]. cbn [map]. now rewrite E, IH. }
  unfold target, path_join, sanitize_file_path. destruct x as [p b|p]; cbn [name path place] in *.
  - rewrite (backslash_plain _ BS), (split_spelled _ NE NS), ID, (collected _ NE SI). unfold below. apply below_push. now apply spelled_relative.
  - rewrite backslash_plain.
    2:{ rewrite in_app_iff. intros [I|[I|[]]]; [contradiction|discriminate I]. }
    rewrite (split_folder _ NE NS), map_app, ID. cbn [map]. rewrite S0. unfold path_collect. rewrite fold_left_app. fold (path_collect p).
    rewrite (collected _ NE SI). cbn [fold_left]. destruct (spelled_end p NE SI) as [A B].
    rewrite (push_plain (spelled p) []) by (try assumption; reflexivity). cbn [app]. rewrite below_push.
    + unfold below. now rewrite <- app_assoc.
    + pose proof (spelled_relative p SI) as R. destruct (spelled p); [now elim A|exact R].
Qed.

(** ** what a wish leads to *)
Lemma named_simple sanitize p : plain_names sanitize -> Forall (plain_name sanitize) p -> named p = p.
Proof.
  intros P F. induction F as [|c p (A & B & _ & E) F IH]; [reflexivity|]. unfold named in *. cbn [filter]. rewrite IH.
  replace (idle c) with false; [reflexivity|]. symmetry. unfold idle. destruct (P c) as (_ & D & _). rewrite E in D.
  apply orb_false_iff. split.
  - destruct (bytes_eqb c []) eqn:X; [apply bytes_eqb_eq in X; contradiction|reflexivity].
  - destruct (bytes_eqb c [x2e]) eqn:X; [apply bytes_eqb_eq in X; contradiction|reflexivity].
Qed.
Lemma path_walks sanitize dir D x : plain_names sanitize -> walks dir D -> place x <> [] -> Forall (plain_name sanitize) (place x) ->
  walks (path dir x) (D ++ place x).
Proof.
  intros P W NE F. pose proof (plain_simple _ _ F) as SI.
  assert (NS : Forall (fun c => ~ In x2f c) (place x)) by (eapply Forall_impl; [|exact SI]; now intros c [_ H]).
  assert (K : forall q, is_absolute q = false -> walks q (place x) -> walks (match dir with [] => [] | _ => if Byte.eqb (last dir x00) x2f then dir else dir ++ [x2f] end ++ q) (D ++ place x)).
  { intros q A Q. rewrite <- below_push by exact A. now apply push_walks. }
  assert (R : is_absolute (spelled (place x)) = false) by now apply spelled_relative.
  destruct x as [p b|p]; cbn [path place] in *.
  - apply K; [exact R|]. exists (split_slash (spelled p)). split; [apply split_pieces|]. rewrite (split_spelled _ NE NS).
    symmetry. exact (named_simple sanitize p P F).
  - unfold below. rewrite <- app_assoc. destruct (spelled_end p NE SI) as [A _]. apply K.
    + destruct (spelled p); [now elim A|exact R].
    + exists (split_slash (spelled p ++ [x2f])). split; [apply split_pieces|]. rewrite (split_folder _ NE NS), filter_app.
      cbn. rewrite app_nil_r. symmetry. exact (named_simple sanitize p P F).
Qed.
Lemma walks_parent p a : walks p a -> a <> [] -> has_parent p = true.
Proof.
  intros (ps & H & ->) NE. unfold has_parent. destruct (is_absolute p).
  - rewrite <- (pieces_split _ _ H). destruct (filter (fun q => negb (idle q)) ps) as [|q l] eqn:E; [now elim NE|].
    assert (I : In q (filter (fun q => negb (idle q)) ps)) by (rewrite E; now left). apply filter_In in I as [I J].
    apply existsb_exists. exists q. split; [exact I|exact J].
  - destruct p as [|b p]; [|rewrite len_cons; destruct (1 + len p =? 0) eqn:Z; [apply N.eqb_eq in Z; lia|reflexivity]].
    elim NE. inversion H as [p' H' E1 E2|p' q' k' H' K' E1 E2]; [reflexivity|destruct p'; discriminate].
Qed.
Definition good (sanitize : bytes -> bytes) (x : wish) : Prop := place x <> [] /\ Forall (plain_name sanitize) (place x).
Lemma leads_way sanitize dir x y : plain_names sanitize -> good sanitize x -> good sanitize y ->
  leads (path dir x) (path dir y) -> on_the_way (place x) (place y).
Proof.
  intros P [X1 X2] [Y1 Y2] (a & b & A & B). destruct (walks_total dir) as (D & W).
  pose proof (path_walks sanitize dir D x P W X1 X2) as WX. pose proof (path_walks sanitize dir D y P W Y1 Y2) as WY.
  rewrite (walks_unique _ _ _ A WX) in B. pose proof (walks_unique _ _ _ B WY) as E. rewrite <- app_assoc in E. apply app_inv_head in E.
  now exists b.
Qed.
Lemma leads_on_leads p q : leads_on p q -> leads p q.
Proof. intros (a & b & A & B & _). now exists a, b. Qed.

(** ** opening and reading *)
Lemma opens_reads cd f i e s b : entry_at f i = Some e -> nofail (s_sched s) -> read_result cd e (s_data s) = Ok b ->
  exists r, seek_reader_at f i s = (Ok (r, e), er_src r) /\ s_data (er_src r) = s_data s /\ nofail (s_sched (er_src r)) /\
    let '(x, r') := er_read_to_end cd r in x = Ok b /\ s_data (er_src r') = s_data s /\ nofail (s_sched (er_src r')).
Proof.
  intros E N R. unfold seek_reader_at. rewrite E. unfold bind, get, ret. destruct (seek_any e s N) as (p & q & S & Hp & Nq). rewrite S.
  unfold read_result in R. destruct (data_offset _ _) as [x|x|pn]; cbn [rbind as_unit] in *; [|discriminate R..].
  specialize (Hp x eq_refl). subst p. set (s1 := {| s_data := s_data s; s_pos := x; s_sched := q |}).
  exists (er_new s1 (en_compression (st_entry e)) (en_compressed_size (st_entry e))). set (r := er_new s1 _ _).
  split; [reflexivity|]. split; [reflexivity|]. split; [exact Nq|].
  pose proof (er_read_to_end_nofail cd r Nq) as V. pose proof (er_read_to_end_spec cd r) as T. destruct (er_read_to_end cd r) as [y r']. cbn [fst] in V.
  unfold r in V at 1 2. rewrite content_new in V. cbn [s1 s_pos s_data] in V. destruct (decoded cd _ _) as [c ok]. cbn [fst snd] in V.
  destruct ok; [|discriminate R]. destruct (_ =? _); [|discriminate R]. injection R as ->. subst y.
  destruct T as (u & Hu & _ & [_ _ D _ _ _] & _). split; [reflexivity|]. split; [exact D|].
  change (s_sched (er_src r)) with q in Hu. rewrite Hu in Nq. now apply nofail_app in Nq.
Qed.

(** ** one wish after another *)
Definition stems (dir : bytes) (done : list wish) (h : list action) : Prop :=
  forall a, In a h -> exists y, In y done /\ acts_on a = path dir y /\ match a with MakeDirs _ => exists p, y = AFolder p | _ => exists p b, y = AFile p b end.
Definition adds (dir : bytes) (x : wish) (add : list action) : Prop :=
  let q := path dir x in
  match x with
  | AFile p b => add = [CreateNew q; Fill q b] \/ add = [MakeParent q; CreateNew q; Fill q b]
  | AFolder p => add = [] \/ add = [MakeDirs q]
  end.
Lemma created_in q h : In q (created h) -> In (CreateNew q) h.
Proof. unfold created. rewrite in_flat_map. intros ([p|p|p|p b] & I & J); try contradiction. destruct J as [<-|[]]. exact I. Qed.
Lemma stems_created dir done h q : stems dir done h -> In q (created h) -> exists p b, In (AFile p b) done /\ q = path dir (AFile p b).
Proof. intros S I. apply created_in, S in I as (y & I & A & p & b & ->). now exists p, b. Qed.
Lemma together_sym x y : together x y -> together y x.
Proof. destruct x, y; cbn; tauto. Qed.

Lemma unzip_wish cd sanitize t dir f i h s x e b done : fair dir t -> plain_names sanitize -> sanitize [] = [] -> Forall (good sanitize) done -> good sanitize x ->
  Forall (fun y => together y x) done -> stems dir done h -> nofail (s_sched s) -> entry_at f i = Some e ->
  zs_as_str (en_filename (st_entry e)) = Ok (name x) -> read_result cd e (s_data s) = Ok b ->
  match x with AFile _ c => c = b | AFolder _ => True end ->
  exists add s', unzip_entry cd sanitize t dir f i h s = (Ok tt, h ++ add, s') /\ adds dir x add /\
    s_data s' = s_data s /\ nofail (s_sched s') /\
    match x with AFile _ _ => True | AFolder _ => add = [] -> t_exists t h (path dir x) = true end.
Proof.
  intros FA P S0 GD GX TO ST NF E NA RD SAME. destruct GX as [NE PL].
  destruct (opens_reads cd f i e s b E NF RD) as (r & OP & D1 & N1 & RR).
  unfold unzip_entry. rewrite E, NA. cbn [expect].
  assert (TA : target sanitize dir (name x) = path dir x) by now apply target_path. rewrite TA.
  assert (IN : leads_on dir (path dir x)).
  { destruct (walks_total dir) as (D & W). exists D, (place x). split; [exact W|]. split; [now apply (path_walks sanitize)|exact NE]. }
  assert (HP : has_parent (path dir x) = true).
  { destruct (walks_total dir) as (D & W). apply (walks_parent _ (D ++ place x)); [now apply (path_walks sanitize)|].
    intros X. apply app_eq_nil in X as [_ X]. contradiction. }
  assert (WAY : forall y, In y done -> leads (path dir y) (path dir x) -> on_the_way (place y) (place x)).
  { intros y I. apply (leads_way sanitize); auto. rewrite Forall_forall in GD. now apply GD. now split. }
  assert (YAW : forall y, In y done -> leads (path dir x) (path dir y) -> on_the_way (place x) (place y)).
  { intros y I. apply (leads_way sanitize); auto. now split. rewrite Forall_forall in GD. now apply GD. }
  rewrite Forall_forall in TO.
  (* no file made earlier is in the way *)
  assert (FW : forall q, In q (created h) -> leads q (path dir x) -> False).
  { intros q I L. destruct (stems_created dir done h q ST I) as (p & c & J & ->). pose proof (TO _ J) as T. pose proof (WAY _ J L) as W.
    destruct x; cbn [together place] in *; tauto. }
  assert (ED : entry_dir (st_entry e) = Ok (match x with AFile _ _ => false | AFolder _ => true end)).
  { unfold entry_dir. rewrite NA. cbn [rbind]. f_equal. destruct x as [p c|p]; cbn [name].
    - apply spelled_end; [exact NE|]. now apply (plain_simple sanitize).
    - now rewrite ends_app. }
  rewrite ED. cbn [expect]. rewrite OP. destruct x as [p c|p].
  - subst c. set (q := path dir (AFile p b)) in *. rewrite HP. cbn [negb].
    assert (PD : exists add, (if t_parent_is_dir t h q then Ok h else doing t h (MakeParent q)) = Ok (h ++ add) /\
      (add = [] /\ t_parent_is_dir t h q = true \/ add = [MakeParent q])).
    { destruct (t_parent_is_dir t h q) eqn:Q; [exists []; rewrite app_nil_r; split; [reflexivity|now left]|].
      exists [MakeParent q]. unfold doing. destruct (t_accepts t h (MakeParent q)) eqn:A; [split; [reflexivity|now right]|].
      apply FA in A; [|exact IN]; destruct A as (q' & I & L). elim (FW q' I). now apply leads_on_leads. }
    destruct PD as (add & -> & AD).
    assert (CR : created (h ++ add) = created h).
    { rewrite created_app. destruct AD as [[-> _]| ->]; apply app_nil_r. }
    unfold doing at 1. destruct (t_accepts t (h ++ add) (CreateNew q)) eqn:A.
    2:{ exfalso. apply FA in A; [|exact IN]; destruct A as [(q' & I & L)|[(q' & I & L)|[(q' & I & L)|[A I]]]].
      - rewrite CR in I. exact (FW q' I L).
      - assert (J : In (MakeDirs q') h).
        { apply in_app_iff in I as [I|I]; [exact I|]. destruct AD as [[-> _]| ->]; [elim I|]. destruct I as [I|[]]. discriminate I. }
        apply ST in J as (y & J & Y & p' & ->). cbn [acts_on] in Y. subst q'. pose proof (TO _ J) as T. pose proof (YAW _ J L) as W.
        cbn [together place] in *. tauto.
      - assert (J : In (MakeParent q') h \/ q' = q).
        { apply in_app_iff in I as [I|I]; [now left|]. destruct AD as [[-> _]| ->]; [elim I|]. destruct I as [I|[]]. right. now injection I. }
        destruct J as [J| ->].
        + apply ST in J as (y & J & Y & p' & b' & ->). cbn [acts_on] in Y. subst q'. pose proof (TO _ J) as T. pose proof (YAW _ J (leads_on_leads _ _ L)) as W.
          cbn [together place] in *. tauto.
        + destruct L as (u & v & U & V & NV). pose proof (walks_unique _ _ _ U V) as X. rewrite <- (app_nil_r u) in X at 1. apply app_inv_head in X. congruence.
      - destruct AD as [[-> A']| ->]; [rewrite app_nil_r in A; congruence|]. apply I, in_app_iff. right. now left. }
    destruct (er_read_to_end cd r) as [y r']. destruct RR as (-> & D2 & N2).
    unfold doing. destruct (t_accepts t ((h ++ add) ++ [CreateNew q]) (Fill q b)) eqn:B.
    2:{ exfalso. apply FA in B; [|exact IN]. apply B. rewrite created_app. apply in_app_iff. right. now left. }
    exists (add ++ [CreateNew q; Fill q b]), (er_src r'). split; [now rewrite <- !app_assoc|]. split.
    { cbn [adds]. fold q. destruct AD as [[-> _]| ->]; [now left|now right]. }
    split; [exact D2|]. split; [exact N2|exact I].
  - set (q := path dir (AFolder p)) in *. destruct (t_exists t h q) eqn:X.
    + exists [], (er_src r). rewrite app_nil_r. split; [reflexivity|]. split; [now left|]. split; [exact D1|]. split; [exact N1|now intros _].
    + unfold doing. destruct (t_accepts t h (MakeDirs q)) eqn:A.
      * exists [MakeDirs q], (er_src r). split; [reflexivity|]. split; [now right|]. split; [exact D1|]. split; [exact N1|discriminate].
      * exfalso. apply FA in A; [|exact IN]; destruct A as (q' & I & L). exact (FW q' I L).
Qed.

Lemma stems_more dir done h x add : stems dir done h -> adds dir x add -> stems dir (done ++ [x]) (h ++ add).
Proof.
  intros ST AD a I. apply in_app_iff in I as [I|I].
  - apply ST in I as (y & I & Y). exists y. split; [apply in_app_iff; now left|exact Y].
  - exists x. split; [apply in_app_iff; right; now left|]. destruct x as [p b|p]; cbn [adds] in AD.
    + destruct AD as [-> | ->]; repeat (destruct I as [<-|I]; [split; [reflexivity|now exists p, b]|]); elim I.
    + destruct AD as [-> | ->]; [elim I|]. destruct I as [<-|[]]. split; [reflexivity|now exists p].
Qed.
Lemma made_more t h k p : made t h p -> made t (h ++ k) p.
Proof.
  intros (h1 & h2 & -> & [X|(h3 & ->)]); [exists h1, (h2 ++ k)|exists h1, (MakeDirs p :: h3 ++ k)]; rewrite <- app_assoc; (split; [reflexivity|]); [now left|right; eauto].
Qed.

Lemma unzip_wishes cd sanitize t dir f : fair dir t -> plain_names sanitize -> sanitize [] = [] ->
  forall todo done i h s, Forall (good sanitize) done -> Forall (good sanitize) todo -> ForallOrdPairs together (done ++ todo) ->
  stems dir done h -> nofail (s_sched s) ->
  (forall k x, nth_error todo k = Some x -> exists e b, entry_at f (i + N.of_nat k) = Some e /\ zs_as_str (en_filename (st_entry e)) = Ok (name x) /\
     read_result cd e (s_data s) = Ok b /\ match x with AFile _ c => c = b | AFolder _ => True end) ->
  let '(r, h', _) := unzip_from cd sanitize t dir f i (length todo) h s in
  r = Ok tt /\ filled h' = filled h ++ files dir todo /\ created h' = created h ++ map fst (files dir todo) /\
  (forall p, In (AFolder p) todo -> made t h' (below dir p ++ [x2f])) /\
  exists k, h' = h ++ k.
Proof.
  intros FA P S0. induction todo as [|x todo IH]; intros done i h s GD GT OP ST NF EN; cbn [length unzip_from].
  { split; [reflexivity|]. cbn [files flat_map map]. rewrite !app_nil_r. split; [reflexivity|]. split; [reflexivity|]. split; [intros p []|exists []; now rewrite app_nil_r]. }
  inversion GT as [|x' l' GX GT']; subst x' l'.
  destruct (EN O x eq_refl) as (e & b & E & NA & RD & SAME). change (N.of_nat 0) with 0 in E. rewrite N.add_0_r in E.
  assert (TO : Forall (fun y => together y x) done).
  { clear - OP. induction done as [|y done IHd]; [constructor|]. inversion OP as [|a l F O]; subst. constructor; [|now apply IHd].
    rewrite Forall_app in F. destruct F as [_ F]. now inversion F. }
  destruct (unzip_wish cd sanitize t dir f i h s x e b done FA P S0 GD GX TO ST NF E NA RD SAME) as (add & s' & U & AD & D & N' & FO).
  rewrite U. specialize (IH (done ++ [x]) (i + 1) (h ++ add) s').
  assert (GD' : Forall (good sanitize) (done ++ [x])) by (apply Forall_app; split; [exact GD|now constructor]).
  rewrite <- app_assoc in IH. specialize (IH GD' GT' OP (stems_more dir done h x add ST AD) N').
  assert (EN' : forall k x, nth_error todo k = Some x -> exists e b, entry_at f (i + 1 + N.of_nat k) = Some e /\ zs_as_str (en_filename (st_entry e)) = Ok (name x) /\
     read_result cd e (s_data s') = Ok b /\ match x with AFile _ c => c = b | AFolder _ => True end).
  { intros k y Y. rewrite D. replace (i + 1 + N.of_nat k) with (i + N.of_nat (S k)) by lia. now apply EN. }
  specialize (IH EN'). destruct (unzip_from cd sanitize t dir f (i + 1) (length todo) (h ++ add) s') as [[r h'] s2].
  destruct IH as (R & FI & CR & MA & k & ->). split; [exact R|].
  assert (AF : filled add = files dir [x] /\ created add = map fst (files dir [x])).
  { destruct x as [p c|p]; cbn [adds] in AD; destruct AD as [-> | ->]; split; reflexivity. }
  destruct AF as [AF AC]. split; [|split; [|split]].
  - rewrite FI, filled_app, AF, <- app_assoc. destruct x as [p c|p]; reflexivity.
  - rewrite CR, created_app, AC, <- app_assoc. destruct x as [p c|p]; reflexivity.
  - intros p [-> |I]; [|now apply MA]. apply made_more. cbn [adds path] in *. destruct AD as [-> | ->].
    + rewrite app_nil_r. exists h, []. rewrite app_nil_r. split; [reflexivity|]. left. now apply FO.
    + exists h, [MakeDirs (below dir p ++ [x2f])]. split; [reflexivity|]. right. eauto.
  - exists (add ++ k). now rewrite app_assoc.
Qed.

Lemma nth_both {A B} {R : A -> B -> Prop} {l m} : Forall2 R l m -> forall k y, nth_error m k = Some y -> exists x, nth_error l k = Some x /\ R x y.
Proof. induction 1 as [|a b l m H F IH]; intros [|k] y Y; try discriminate Y; [injection Y as <-; now exists a|]. now apply IH. Qed.
Lemma nth_both' {A B} {R : A -> B -> Prop} {l m} : Forall2 R l m -> forall k x, nth_error l k = Some x -> exists y, nth_error m k = Some y /\ R x y.
Proof. induction 1 as [|a b l m H F IH]; intros [|k] x X; try discriminate X; [injection X as <-; now exists b|]. now apply IH. Qed.
(** An archive whose entries are read back under their names and with their contents is extracted as wished. *)
Lemma extracts cd cfg s ops f sanitize t dir ws : plain_names sanitize -> sanitize [] = [] -> fair dir t ->
  Forall2 (asks cd sanitize) ops ws -> ForallOrdPairs together ws -> nofail (s_sched s) -> fst (file cfg s) = Ok f ->
  Forall2 (fun o st => exists e, op_entry o = Some e /\ zs_raw (en_filename (st_entry st)) = zs_raw (en_filename e) /\ zs_enc (en_filename (st_entry st)) = EUtf8) ops (f_entries f) ->
  (forall i o data, nth_error ops (N.to_nat i) = Some o -> holds cd o data -> read_entry cd f i s = Ok data) ->
  let '(r, h, _) := unzip_file cd cfg sanitize t dir s in
  r = Ok tt /\ filled h = files dir ws /\ created h = map fst (files dir ws) /\
  (forall p, In (AFolder p) ws -> made t h (below dir p ++ [x2f])).
Proof.
  intros P S0 FA AS TO NF F1 F5 F6. unfold unzip_file, seek_new.
  destruct (agrees_any (file cfg) s ltac:(auto with insens) NF) as (q & E & _ & Nq). rewrite E in F1 |- *. cbn [fst] in F1. rewrite F1.
  set (s1 := {| s_data := _; s_pos := _; s_sched := q |}).
  assert (GW : Forall (good sanitize) ws).
  { clear - AS. induction AS as [|o x os ws A AS IH]; [constructor|]. constructor; [|exact IH]. now inversion A. }
  assert (LE : length (f_entries f) = length ws) by (rewrite <- (Forall2_len _ _ _ F5); now apply Forall2_len in AS).
  pose proof (unzip_wishes cd sanitize t dir f FA P S0 ws [] 0 [] s1 (Forall_nil _) GW TO) as U. rewrite LE.
  destruct (unzip_from cd sanitize t dir f 0 (length ws) [] s1) as [[r' h'] s2]. destruct U as (R & FI & CR & MA & _).
  - intros a [].
  - exact Nq.
  - intros k x X. rewrite N.add_0_l.
    destruct (nth_both AS k x X) as (o & O & A). destruct (nth_both' F5 k o O) as (e & EE & en & OE & C1 & C3).
    assert (EA : entry_at f (N.of_nat k) = Some e) by (unfold entry_at; now rewrite Nat2N.id).
    assert (NAME : exists b, zs_raw (en_filename en) = name x /\ holds cd o b /\ match x with AFile _ c => c = b | AFolder _ => True end).
    { destruct A as [o e' p b H1 _ _ H2 H3|o e' p b H1 _ _ H2 H3]; rewrite OE in H1; injection H1 as <-; exists b; now repeat split. }
    destruct NAME as (b & NR & HO & SA). exists e, b. split; [exact EA|]. split.
    { unfold zs_as_str. now rewrite C3, C1, NR. }
    split; [|exact SA]. pose proof (F6 (N.of_nat k) o b ltac:(now rewrite Nat2N.id) HO) as RE.
    rewrite read_entry_closed, EA in RE by exact NF. exact RE.
  - now repeat split.
Qed.
Lemma there_and_back cd cfg sched s l sanitize t dir ws : codec_ok cd -> obliging sched -> Forall handy l -> Forall ordinary_op l -> Forall proper l -> ordinary l ->
  entry_mem_size cfg <= 0x1000000000000 -> plain_names sanitize -> sanitize [] = [] -> fair dir t ->
  Forall2 (asks cd sanitize) (filter writes_entry l) ws -> ForallOrdPairs together ws ->
  let '(_, _, w) := run_archive cd sched l in
  len (w_bytes w) < 0x5000000 -> s_data s = w_bytes w -> nofail (s_sched s) ->
  let '(r, h, _) := unzip_file cd cfg sanitize t dir s in
  r = Ok tt /\ filled h = files dir ws /\ created h = map fst (files dir ws) /\
  (forall p, In (AFolder p) ws -> made t h (below dir p ++ [x2f])).
Proof.
  intros CO OB HA OO PR ORD MEM P S0 FA AS TO. pose proof (plain_round_trip cd cfg sched s l CO OB HA OO PR ORD MEM) as PT.
  destruct (run_archive cd sched l) as [[xs r] w]. cbv zeta in PT. destruct PT as (_ & _ & PT). intros L D NF.
  destruct (PT L D NF) as (f & F1 & _ & _ & _ & F5 & F6). apply (extracts cd cfg s (filter writes_entry l) f); auto.
  - eapply Forall2_weaken; [|exact F5]. intros o st (e & OE & C1 & _ & C3 & _). now exists e.
  - intros i o data I HO. now destruct (F6 i o data I HO).
Qed.
(** The same of any session whose archive can be told for what it is. *)
Lemma told_and_back cd cfg sched s l sanitize t dir ws : codec_ok cd -> Forall op_good l -> plain_names sanitize -> sanitize [] = [] -> fair dir t ->
  let '(xs, r, w) := run_archive cd sched l in
  Forall2 (asks cd sanitize) (map snd (succeeded false xs)) ws -> ForallOrdPairs together ws ->
  Forall (fun o => forall e, op_entry o = Some e -> texts_clear e /\ zs_enc (en_filename e) = EUtf8) (map snd (succeeded false xs)) ->
  Forall (fun x => forall it, leaves cd (fst x) (snd x) it -> straight it) (succeeded false xs) ->
  r = Ok tt -> unambiguous cd cfg l xs (w_zip64 w) (w_bytes w) -> s_data s = w_bytes w -> nofail (s_sched s) ->
  let '(r, h, _) := unzip_file cd cfg sanitize t dir s in
  r = Ok tt /\ filled h = files dir ws /\ created h = map fst (files dir ws) /\
  (forall p, In (AFolder p) ws -> made t h (below dir p ++ [x2f])).
Proof.
  intros CO G P S0 FA. pose proof (read_back cd cfg sched s l CO G) as RB. destruct (run_archive cd sched l) as [[xs r] w]. cbv zeta in RB.
  intros AS TO TX ST R U D NF. destruct (RB R U D NF) as (f & F1 & _ & _ & _ & F5 & F6). apply (extracts cd cfg s (map snd (succeeded false xs)) f); auto.
  - clear - F5 TX. induction F5 as [|x st l sts (it & LV & _ & TK) F IH]; [constructor|]. cbn [map] in *. inversion TX as [|? ? T1 T2]; subst. constructor; [|now apply IH].
    apply OrdinaryProofs.leaves_entry in LV. exists (i_entry it). split; [exact LV|]. destruct (T1 _ LV) as [T U]. destruct (TK T) as ((N1 & N2 & _) & _). split; [exact N1|now apply N2].
  - intros i o data I HO. rewrite nth_error_map in I. destruct (nth_error (succeeded false xs) (N.to_nat i)) as [[b o']|] eqn:X; [|discriminate]. cbn in I. injection I as ->.
    apply (F6 i b o data X HO). intros it LV. rewrite Forall_forall in ST. apply nth_error_In in X. exact (ST _ X it LV).
Qed.
