(** Proofs about the compression example. *)
From Coq Require Import Permutation.
From Verif Require Import Base BaseFacts SpecUtf8 SpecArchive SpecRead SpecWrite SpecExtract SpecBack SpecOrdinary Utf8 Utf8Facts ZString ZDate Headers ExtraField
  Entry IO IOFacts Reader EntryReader Writer Extract ExtractProofs BackProofs AllWork Compress SpecCompress.

(** ** paths *)
Lemma spelled_snoc p n : p <> [] -> spelled (p ++ [n]) = spelled p ++ [x2f] ++ n.
Proof.
  induction p as [|c p IH]; [now intros []|]. intros _. destruct p as [|c' p]; [reflexivity|].
  change (c ++ [x2f] ++ spelled ((c' :: p) ++ [n]) = (c ++ [x2f] ++ spelled (c' :: p)) ++ [x2f] ++ n).
  rewrite IH by discriminate. now rewrite <- !app_assoc.
Qed.
Lemma names_simple p : Forall a_name p -> Forall simple p.
Proof. intros F. eapply Forall_impl; [|exact F]. now intros c [A B]. Qed.
Lemma join_name dir p n : Forall a_name p -> a_name n -> path_join (path_of dir p) n = path_of dir (p ++ [n]).
Proof.
  intros F [N1 N2]. unfold path_join. rewrite below_push by now apply plain_relative. destruct p as [|c p]; [reflexivity|].
  unfold path_of. change (((c :: p) ++ [n])) with (c :: (p ++ [n])). unfold below.
  change (c :: p ++ [n]) with ((c :: p) ++ [n]). rewrite spelled_snoc by discriminate.
  pose proof (spelled_end (c :: p) ltac:(discriminate) (names_simple _ F)) as [A B].
  set (pre := match dir with [] => [] | _ => if Byte.eqb (last dir x00) x2f then dir else dir ++ [x2f] end).
  assert (E : exists b r, pre ++ spelled (c :: p) = b :: r) by (destruct (pre ++ spelled (c :: p)) as [|b r] eqn:E; [now apply app_eq_nil in E as [_ E]|now exists b, r]).
  destruct E as (b & r & E). pose proof (ends_last (pre ++ spelled (c :: p))) as EL. rewrite (ends_app _ _ A), B in EL. rewrite E in *. rewrite <- EL.
  rewrite <- E. now rewrite <- !app_assoc.
Qed.
Lemma lies_names d dir p : honest d -> lies d dir p -> Forall a_name p.
Proof.
  intros H. induction 1 as [|p l n L IH D E I]; [constructor|]. apply Forall_app. split; [exact IH|]. constructor; [|constructor].
  destruct (H _ _ E) as [_ F]. rewrite Forall_forall in F. now apply F.
Qed.

(** ** the walk *)
Lemma sort_out_eq d dir names : forall dirs files, sort_out d dir names dirs files =
  (dirs ++ filter (d_is_dir d) (map (path_join dir) names), files ++ filter (fun p => negb (d_is_dir d p)) (map (path_join dir) names)).
Proof.
  induction names as [|n names IH]; intros dirs files; cbn [sort_out map filter]; [now rewrite !app_nil_r|]. cbv zeta.
  destruct (d_is_dir d (path_join dir n)); cbn [negb]; rewrite IH; now rewrite <- app_assoc.
Qed.
Lemma filter_map {A B} (f : A -> B) (g : B -> bool) l : filter g (map f l) = map f (filter (fun x => g (f x)) l).
Proof. induction l as [|a l IH]; [reflexivity|]. cbn [map filter]. destruct (g (f a)); cbn [map]; now rewrite IH. Qed.
Lemma filter_split {A} (g : A -> bool) l : Permutation l (filter g l ++ filter (fun x => negb (g x)) l).
Proof.
  induction l as [|a l IH]; [constructor|]. cbn [filter]. destruct (g a); cbn [negb app]; [now constructor|].
  eapply Permutation_trans; [constructor; exact IH|]. apply Permutation_middle.
Qed.
Lemma nodup_app {A} (a b : list A) : NoDup a -> NoDup b -> (forall x, In x a -> In x b -> False) -> NoDup (a ++ b).
Proof.
  induction 1 as [|x a N Na IH]; intros Nb D; [exact Nb|]. cbn [app]. constructor.
  - rewrite in_app_iff. intros [I|I]; [contradiction|]. now apply (D x); [left|].
  - apply IH; [exact Nb|]. intros y I J. now apply (D y); [right|].
Qed.

Record walked (d : disk) (dir : bytes) (done queue files : list (list bytes)) : Prop := {
  wk_once : NoDup (done ++ queue ++ files);
  wk_done : Forall (a_folder d dir) done;
  wk_queue : Forall (a_folder d dir) queue;
  wk_files : Forall (a_file d dir) files;
  wk_down : forall p l n, In p done -> d_list d (path_of dir p) = Some l -> In n l -> In (p ++ [n]) (done ++ queue ++ files);
  wk_up : forall x, In x (done ++ queue ++ files) -> x = [] \/ exists p n, x = p ++ [n] /\ In p done;
  wk_top : In [] (done ++ queue) }.
Lemma walked_start d dir : walked d dir [] [[]] [].
Proof.
  constructor; cbn [app].
  - constructor; [intros []|constructor].
  - constructor.
  - repeat constructor.
  - constructor.
  - intros p l n [].
  - intros x [<-|[]]. now left.
  - now left.
Qed.
Lemma walked_step d dir done q rest files names : honest d -> walked d dir done (q :: rest) files -> d_list d (path_of dir q) = Some names ->
  let under := map (fun n => q ++ [n]) names in
  let is p := d_is_dir d (path_of dir p) in
  walked d dir (done ++ [q]) (rest ++ filter is under) (files ++ filter (fun p => negb (is p)) under).
Proof.
  intros H W E under is. pose proof (H _ _ E) as [Nn Fn]. pose proof (wk_queue _ _ _ _ _ W) as Q. inversion Q as [|q' r' Hq Hr]; subst q' r'.
  assert (Nu : NoDup under).
  { unfold under. clear - Nn. induction Nn as [|n l N Nn IH]; [constructor|]. cbn [map]. constructor; [|exact IH].
    intros I. apply in_map_iff in I as (m & X & I). apply app_inj_tail in X as [_ ->]. contradiction. }
  assert (PM : Permutation ((done ++ [q]) ++ (rest ++ filter is under) ++ files ++ filter (fun p => negb (is p)) under) ((done ++ (q :: rest) ++ files) ++ under)).
  { rewrite <- !app_assoc. cbn [app]. apply Permutation_app_head. constructor. rewrite <- ?app_assoc. apply Permutation_app_head.
    eapply Permutation_trans; [apply Permutation_app_swap_app|]. apply Permutation_app_head. symmetry. apply filter_split. }
  assert (LU : forall x, In x under -> lies d dir x /\ x <> []).
  { intros x I. apply in_map_iff in I as (n & <- & I). split; [|intros X; now apply app_eq_nil in X as [_ X]].
    destruct Hq as [L D]. now apply (lies_in d dir q names). }
  assert (MEM : forall x, In x ((done ++ [q]) ++ (rest ++ filter is under) ++ files ++ filter (fun p => negb (is p)) under) <-> In x (done ++ (q :: rest) ++ files) \/ In x under).
  { intros x. rewrite <- in_app_iff. split; apply Permutation_in; [exact PM|now symmetry]. }
  constructor.
  - eapply Permutation_NoDup; [symmetry; exact PM|]. apply nodup_app; [exact (wk_once _ _ _ _ _ W)|exact Nu|].
    intros x I J. apply in_map_iff in J as (n & <- & J). destruct (wk_up _ _ _ _ _ W _ I) as [X|(p & m & X & P)].
    + now apply app_eq_nil in X as [_ X].
    + apply app_inj_tail in X as [<- _]. pose proof (wk_once _ _ _ _ _ W) as O. cbn [app] in O. apply NoDup_remove_2 in O. apply O.
      rewrite in_app_iff. now left.
  - apply Forall_app. split; [exact (wk_done _ _ _ _ _ W)|]. now constructor.
  - apply Forall_app. split; [exact Hr|]. apply Forall_forall. intros x I. apply filter_In in I as [I D]. split; [now apply LU|]. now right.
  - apply Forall_app. split; [exact (wk_files _ _ _ _ _ W)|]. apply Forall_forall. intros x I. apply filter_In in I as [I D].
    destruct (LU x I) as [L NE]. split; [exact L|]. split; [exact NE|]. now apply negb_true_iff in D.
  - intros p l n I L J. rewrite MEM. apply in_app_iff in I as [I|[<-|[]]].
    + left. exact (wk_down _ _ _ _ _ W p l n I L J).
    + right. rewrite E in L. injection L as <-. unfold under. now apply in_map_iff; exists n.
  - intros x I. rewrite MEM in I. destruct I as [I|I].
    + destruct (wk_up _ _ _ _ _ W x I) as [X|(p & n & X & P)]; [now left|]. right. exists p, n. split; [exact X|]. apply in_app_iff. now left.
    + right. apply in_map_iff in I as (n & <- & _). exists q, n. split; [reflexivity|]. apply in_app_iff. right. now left.
  - pose proof (wk_top _ _ _ _ _ W) as T. apply in_app_iff in T as [T|[T|T]]; apply in_app_iff.
    + left. apply in_app_iff. now left.
    + left. apply in_app_iff. right. now left.
    + right. apply in_app_iff. now left.
Qed.
Lemma walked_end d dir done files : walked d dir done [] files -> lists (a_file d dir) files.
Proof.
  intros W. pose proof (wk_once _ _ _ _ _ W) as O. cbn [app] in O.
  assert (ALL : forall p, lies d dir p -> In p done \/ In p files).
  { induction 1 as [|p l n L IH D E I].
    - pose proof (wk_top _ _ _ _ _ W) as T. rewrite app_nil_r in T. now left.
    - destruct IH as [IH|IH].
      + pose proof (wk_down _ _ _ _ _ W p l n IH E I) as X. cbn [app] in X. now apply in_app_iff in X.
      + exfalso. pose proof (wk_files _ _ _ _ _ W) as F. rewrite Forall_forall in F. destruct (F p IH) as (_ & NE & X).
        destruct D as [D|D]; [now apply NE|congruence]. }
  split.
  - clear - O. induction done as [|x done IH]; [exact O|]. apply IH. now inversion O.
  - intros x. split.
    + intros I. pose proof (wk_files _ _ _ _ _ W) as F. rewrite Forall_forall in F. now apply F.
    + intros (L & NE & X). destruct (ALL x L) as [I|I]; [|exact I]. exfalso. pose proof (wk_done _ _ _ _ _ W) as F. rewrite Forall_forall in F.
      destruct (F x I) as (_ & [Y|Y]); [now apply NE|congruence].
Qed.
Lemma under_paths d dir q names : honest d -> lies d dir q -> d_list d (path_of dir q) = Some names ->
  map (path_join (path_of dir q)) names = map (path_of dir) (map (fun n => q ++ [n]) names).
Proof.
  intros H L E. pose proof (H _ _ E) as [_ F]. rewrite map_map. apply map_ext_in. intros n I. rewrite Forall_forall in F. apply join_name; [|now apply F].
  now apply (lies_names d dir).
Qed.
Lemma walk_gives d dir : honest d -> forall fuel done queue files, walked d dir done queue files ->
  match walk_dirs d fuel (map (path_of dir) queue) (map (path_of dir) files) with
  | Done l => exists fs, l = map (path_of dir) fs /\ lists (a_file d dir) fs
  | Bail => exists p, a_folder d dir p /\ d_list d (path_of dir p) = None
  | Failed _ => False
  | Broke _ => forall l, (forall p, a_folder d dir p -> In p l) -> (fuel + length done < length l)%nat
  end.
Proof.
  intros H. induction fuel as [|fuel IH]; intros done queue files W; destruct queue as [|q rest]; cbn [map walk_dirs];
    try (exists files; split; [reflexivity|exact (walked_end _ _ _ _ W)]).
  - intros l A. cbn [Nat.add].
    assert (I : incl (done ++ [q]) l).
    { intros x X. apply A. apply in_app_iff in X as [X|[<-|[]]].
      - pose proof (wk_done _ _ _ _ _ W) as F. rewrite Forall_forall in F. now apply F.
      - pose proof (wk_queue _ _ _ _ _ W) as F. now inversion F. }
    assert (Nd : NoDup (done ++ [q])).
    { pose proof (wk_once _ _ _ _ _ W) as O. cbn [app] in O. change (q :: rest ++ files) with ([q] ++ rest ++ files) in O. rewrite app_assoc in O.
      clear - O. induction (done ++ [q]) as [|x m IH]; [constructor|]. cbn [app] in O. inversion O as [|x' m' NI Nm]; subst. constructor; [|now apply IH].
      intros X. apply NI, in_app_iff. now left. }
    pose proof (NoDup_incl_length Nd I) as L. rewrite app_length in L. cbn [length] in L. lia.
  - pose proof (wk_queue _ _ _ _ _ W) as F. assert (Hq : a_folder d dir q) by now inversion F.
    destruct (d_list d (path_of dir q)) as [names|] eqn:E; [|now exists q]. rewrite sort_out_eq, (under_paths d dir q names H (proj1 Hq) E), !(filter_map (path_of dir)), <- !map_app.
    pose proof (walked_step d dir done q rest files names H W E) as W'. cbv zeta beta in W'. specialize (IH _ _ _ W').
    destruct (walk_dirs _ _ _ _); [exact IH|exact IH|exact IH|]. intros l A. specialize (IH l A). rewrite app_length in IH. cbn [length] in IH. lia.
Qed.
Lemma walk_dir_gives d fuel dir : honest d ->
  match walk_dir d fuel dir with
  | Done l => exists fs, l = map (path_of dir) fs /\ lists (a_file d dir) fs
  | Bail => exists p, a_folder d dir p /\ d_list d (path_of dir p) = None
  | Failed _ => False
  | Broke _ => forall l, (forall p, a_folder d dir p -> In p l) -> (fuel < length l)%nat
  end.
Proof.
  intros H. pose proof (walk_gives d dir H fuel [] [[]] [] (walked_start d dir)) as G. unfold walk_dir. cbn [map path_of] in G.
  destruct (walk_dirs d fuel [dir] []); try exact G. intros l A. specialize (G l A). cbn [length] in G. lia.
Qed.

(** ** putting the files away *)
Lemma valid_behind a b : SpecUtf8.is_utf8 a -> utf8_valid (a ++ b) = utf8_valid b.
Proof.
  intros (cs & F & ->). induction F as [|c cs S F IH]; [reflexivity|]. cbn [map concat]. rewrite <- app_assoc, utf8_encode by exact S. exact IH.
Qed.
Lemma valid_first b l : utf8_valid (b :: l) = true -> (0x80 <=? b2n b) && (b2n b <? 0xC0) = false.
Proof.
  intros V. apply utf8_valid_iff in V as (cs & F & E). destruct F as [|c cs S F]; [discriminate E|]. cbn [map concat] in E.
  assert (X : forall n, n < 256 -> b2n (n2b n) = n) by (intros n L; rewrite b2n_n2b; now apply N.mod_small).
  unfold encode_scalar in E. destruct (c <? 0x80) eqn:C1; [|destruct (c <? 0x800) eqn:C2; [|destruct (c <? 0x10000) eqn:C3]]; injection E as -> _; rewrite X; unfold scalar in S; lia.
Qed.
Lemma starts_iff p : forall l, starts_with l p = true <-> exists r, l = p ++ r.
Proof.
  induction p as [|x p IH]; intro l; [split; [now exists l|destruct l; reflexivity]|]. destruct l as [|y l]; [split; [discriminate|now intros (r & ?)]|].
  cbn [starts_with app]. rewrite andb_true_iff, IH. split.
  - intros [E (r & ->)]. apply Byte.byte_dec_bl in E. subst y. now exists r.
  - intros (r & E). injection E as E1 E2. subst y l. split; [now apply Byte.byte_dec_lb|now exists r].
Qed.
Lemma starts_app l p : starts_with (p ++ l) p = true.
Proof. induction p as [|x p IH]; [now destruct l|]. cbn [app starts_with]. rewrite IH, andb_true_r. now apply Byte.byte_dec_lb. Qed.
Lemma root_path dir p : below_root dir -> p <> [] -> path_of dir p = dir ++ [x2f] ++ spelled p.
Proof.
  intros [A B] NE. destruct p as [|c p]; [now elim NE|]. unfold path_of, below. destruct dir as [|b dir]; [now elim A|].
  destruct (Byte.eqb (last (b :: dir) x00) x2f) eqn:E; [apply Byte.byte_dec_bl in E; contradiction|]. now rewrite <- app_assoc.
Qed.
Lemma cut_path dir p : below_root dir -> p <> [] -> SpecUtf8.is_utf8 dir -> utf8_valid (path_of dir p) = true ->
  starts_with (path_of dir p) dir = true /\ str_from (len dir + 1) (path_of dir p) = Ok (spelled p) /\ SpecUtf8.is_utf8 (spelled p).
Proof.
  intros B NE U V. rewrite (root_path dir p B NE) in *. rewrite (valid_behind _ _ U) in V. cbn [app utf8_valid] in V.
  change (b2n x2f <? 0x80) with true in V. cbn match in V. split; [apply starts_app|]. split; [|now apply utf8_valid_iff].
  unfold str_from. rewrite (app_assoc dir [x2f]). assert (L : len (dir ++ [x2f]) = len dir + 1) by now rewrite len_app.
  rewrite <- L, drop_app_exact by reflexivity. rewrite (len_app (dir ++ [x2f])). replace (len (dir ++ [x2f]) + len (spelled p) <? len (dir ++ [x2f])) with false by lia.
  destruct (spelled p) as [|b r]; [reflexivity|]. now rewrite (valid_first _ _ V).
Qed.
Definition reads (d : disk) (dir : bytes) (x : list bytes * bytes) : Prop := d_read d (path_of dir (fst x)) = Some (snd x).
Lemma handle_gives cd d dir : below_root dir -> SpecUtf8.is_utf8 dir -> forall fs w w', Forall (fun p => p <> []) fs ->
  handle_entries cd d dir (map (path_of dir) fs) w = (Done tt, w') ->
  exists xs, map fst xs = fs /\ Forall (reads d dir) xs /\ Forall (fun x => SpecUtf8.is_utf8 (spelled (fst x))) xs /\
    run_ops cd (map put xs) w = (map (fun o => (o, Ok tt)) (map put xs), w').
Proof.
  intros B U. induction fs as [|p fs IH]; intros w w' NE E.
  - exists []. cbn in E. injection E as ->. repeat split; constructor.
  - inversion NE as [|p' fs' H1 H2]; subst. cbn [map handle_entries] in E. unfold to_str in E. destruct (utf8_valid (path_of dir p)) eqn:V; [|discriminate E].
    destruct (cut_path dir p B H1 U V) as (S1 & S2 & S3). rewrite S1, S2 in E. cbn [negb] in E. cbn match in E. unfold write_entry in E.
    destruct (d_read d (path_of dir p)) as [b|] eqn:R; [|discriminate E].
    destruct (write_entry_whole cd (entry_new (zs_from_string (spelled p)) Deflate) b w) as [r w1] eqn:WE. destruct r as [[]| |]; try discriminate E.
    destruct (IH w1 w' H2 E) as (xs & X1 & X2 & X3 & X4). exists ((p, b) :: xs). cbn [map fst]. split; [now rewrite X1|].
    split; [constructor; [exact R|exact X2]|]. split; [now constructor|]. cbn [run_ops put fst snd run_op]. now rewrite WE, X4.
Qed.
Lemma handle_works cd d dir : below_root dir -> SpecUtf8.is_utf8 dir -> forall xs w w', Forall (fun x => fst x <> [] /\ SpecUtf8.is_utf8 (path_of dir (fst x))) xs -> Forall (reads d dir) xs ->
  run_ops cd (map put xs) w = (map (fun o => (o, Ok tt)) (map put xs), w') ->
  handle_entries cd d dir (map (path_of dir) (map fst xs)) w = (Done tt, w').
Proof.
  intros B U. induction xs as [|[p b] xs IH]; intros w w' NE RD E.
  - cbn in E. now injection E as ->.
  - inversion NE as [|x' xs' [H1 H1'] H2]; subst. inversion RD as [|x' xs' R1 R2]; subst. cbn [fst] in *. unfold reads in R1. cbn [fst snd] in R1.
    apply utf8_valid_iff in H1'. cbn [map fst handle_entries]. unfold to_str. rewrite H1'.
    destruct (cut_path dir p B H1 U H1') as (S1 & S2 & S3). rewrite S1, S2. cbn [negb]. cbn match. unfold write_entry. rewrite R1.
    cbn [map put fst snd run_ops run_op] in E. destruct (write_entry_whole cd (entry_new (zs_from_string (spelled p)) Deflate) b w) as [r w1] eqn:WE.
    destruct (run_ops cd (map put xs) w1) as [ys w2] eqn:RO. injection E as E1 E2 E3. subst r ys w2. now apply IH.
Qed.

(** ** the whole example *)
Lemma file_lists d dir fs xs : lists (a_file d dir) fs -> map fst xs = fs -> Forall (reads d dir) xs -> lists (fun x => file_with d dir (fst x) (snd x)) xs.
Proof.
  intros [Nf IF] <- R. split; [now apply NoDup_map_inv in Nf|]. intros [p b]. cbn [fst snd]. rewrite Forall_forall in R. split.
  - intros I. split; [apply IF; now apply (in_map fst) in I|exact (R _ I)].
  - intros [A E]. apply IF, in_map_iff in A as ([q c] & X & I). cbn [fst] in X. subst q. pose proof (R _ I) as X. unfold reads in X. cbn [fst snd] in X. congruence.
Qed.
Lemma compress_gives cd sched d fuel args dir w : honest d -> called_for d args dir -> d_is_dir d dir = true -> below_root dir ->
  run cd sched d fuel args = (Done tt, Some w) ->
  exists xs, lists (fun x => file_with d dir (fst x) (snd x)) xs /\ Forall (fun x => SpecUtf8.is_utf8 (spelled (fst x))) xs /\
    run_archive cd sched (map put xs) = (map (fun o => (o, Ok tt)) (map put xs), Ok tt, w).
Proof.
  intros H (i & o & r & -> & C & E1 & E2 & E3) D B R. unfold run in R. rewrite C, E1, E2, E3, D in R. cbn [negb] in R. cbn match in R.
  unfold handle_directory in R. pose proof (walk_dir_gives d fuel dir H) as G. destruct (walk_dir d fuel dir) as [l| | |]; try discriminate R.
  destruct G as (fs & -> & L). unfold to_str in R. destruct (utf8_valid dir) eqn:U; [|discriminate R]. apply utf8_valid_iff in U.
  destruct (handle_entries cd d dir (map (path_of dir) fs) (zw_new sched)) as [x w1] eqn:HE. destruct x as [[]| | |]; try discriminate R.
  assert (NE : Forall (fun p => p <> []) fs) by (apply Forall_forall; intros p I; apply (proj2 L) in I as (_ & NE & _); exact NE).
  destruct (handle_gives cd d dir B U fs _ _ NE HE) as (xs & X1 & X2 & X3 & X4). exists xs. split; [exact (file_lists _ _ _ _ L X1 X2)|]. split; [exact X3|].
  unfold run_archive. rewrite X4. destruct (zw_close w1) as [c w2]. destruct c as [[]| |]; try discriminate R. now injection R as ->.
Qed.
Lemma put_handy x : len (snd x) < 0x10000000000000000 -> len (spelled (fst x)) + 60 <= 65535 -> handy (put x).
Proof.
  intros L1 L2. split; [discriminate|]. split; [|split; [discriminate|]].
  - split; [|exact L1]. split; [|constructor]. repeat split; reflexivity.
  - unfold roomy. cbn [put op_entry entry_new en_extra en_filename en_comment zs_from_string zs_raw stored_bytes zs_alt].
    change (len (spec_extras [])) with 0. change (len (@nil byte)) with 0. lia.
Qed.
Lemma all_reads d dir : forall fs, Forall (fun p => exists b, d_read d (path_of dir p) = Some b) fs -> exists xs, map fst xs = fs /\ Forall (reads d dir) xs.
Proof.
  induction 1 as [|p fs (b & E) F IH]; [exists []; now split|]. destruct IH as (xs & <- & R). exists ((p, b) :: xs). split; [reflexivity|]. now constructor.
Qed.
Lemma compress_works cd sched d fuel args dir n : enc_takes cd -> obliging sched -> honest d -> called_for d args dir -> d_is_dir d dir = true -> below_root dir ->
  orderly d dir n -> (n <= fuel)%nat -> exists w, run cd sched d fuel args = (Done tt, Some w).
Proof.
  intros T OB H (i & o & r & -> & C & E1 & E2 & E3) D B (U & (ds & DL & DA) & LI & FI) LE. unfold run. rewrite C, E1, E2, E3, D. cbn [negb]. cbn match.
  unfold handle_directory. pose proof (walk_dir_gives d fuel dir H) as G. destruct (walk_dir d fuel dir) as [l| | |p].
  2:{ destruct G as (p & P & X). now elim (LI p P). }
  2:{ elim G. }
  2:{ specialize (G ds DA). lia. }
  destruct G as (fs & -> & L). unfold to_str. pose proof (proj2 (utf8_valid_iff dir) U) as V. rewrite V.
  destruct (all_reads d dir fs) as (xs & <- & R).
  { apply Forall_forall. intros p I. apply (proj2 L) in I. destruct (FI p I) as (b & X & _). now exists b. }
  assert (HA : Forall handy (map put xs)).
  { apply Forall_map, Forall_forall. intros x I. destruct (FI (fst x)) as (b & X & X1 & X2 & X3); [apply (proj2 L); now apply in_map|].
    rewrite Forall_forall in R. pose proof (R x I) as Y. unfold reads in Y. rewrite X in Y. injection Y as ->. now apply put_handy. }
  pose proof (archive_works cd sched (map put xs) T OB HA) as AW. unfold run_archive in AW. destruct (run_ops cd (map put xs) (zw_new sched)) as [ys w1] eqn:RO.
  destruct (zw_close w1) as [c w2] eqn:ZC. destruct AW as [-> ->]. rewrite (handle_works cd d dir B U xs (zw_new sched) w1); [| |exact R|exact RO].
  - rewrite ZC. now exists w2.
  - apply Forall_forall. intros x I. assert (J : In (fst x) (map fst xs)) by now apply in_map. apply (proj2 L) in J. split; [now destruct J as (_ & NE & _)|].
    destruct (FI _ J) as (b & _ & _ & X & _). exact X.
Qed.
Lemma compress_file cd sched d fuel args input w : called_for d args input -> d_is_dir d input = false ->
  run cd sched d fuel args = (Done tt, Some w) ->
  exists a n b, walks input (a ++ [n]) /\ n <> [x2e; x2e] /\ SpecUtf8.is_utf8 n /\ d_read d input = Some b /\
    let o := OpWhole (entry_new (zs_from_string n) Deflate) b in
    run_archive cd sched [o] = ([(o, Ok tt)], Ok tt, w).
Proof.
  intros (i & o & r & -> & C & E1 & E2 & E3) D R. unfold run in R. rewrite C, E1, E2, E3, D in R. cbn [negb] in R. cbn match in R.
  unfold handle_singular, file_name in R.
  destruct (rev (filter (fun q => negb (bytes_eqb q [] || bytes_eqb q [x2e])) (split_slash input))) as [|n a] eqn:FN; [discriminate R|].
  destruct (bytes_eqb n [x2e; x2e]) eqn:DD; [discriminate R|]. unfold to_str in R. destruct (utf8_valid n) eqn:U; [|discriminate R]. unfold write_entry in R.
  destruct (d_read d input) as [b|] eqn:RD; [|discriminate R]. exists (rev a), n, b. split.
  { exists (split_slash input). split; [apply split_pieces|]. apply (f_equal (@rev bytes)) in FN. rewrite rev_involutive in FN. exact (eq_sym FN). }
  split; [intros ->; discriminate DD|]. split; [now apply utf8_valid_iff|]. split; [reflexivity|]. cbv zeta. unfold run_archive. cbn [run_ops run_op].
  destruct (write_entry_whole cd (entry_new (zs_from_string n) Deflate) b (zw_new sched)) as [x w1]. destruct x as [[]| |]; try discriminate R.
  destruct (zw_close w1) as [c w2]. destruct c as [[]| |]; try discriminate R. now injection R as ->.
Qed.

(** ** and back *)
Lemma files_apart d dir p q : a_file d dir p -> a_file d dir q -> p <> q -> ~ on_the_way p q.
Proof.
  intros (_ & NE & D) (L & _ & _) NQ (r & E). subst q. assert (NR : r <> []) by (intros ->; apply NQ; now rewrite app_nil_r). clear NQ.
  destruct (exists_last NR) as (r' & n & ->). clear NR. revert n L.
  induction r' as [|m r' IH] using rev_ind; intros n L; rewrite app_assoc in L.
  - rewrite app_nil_r in L. inversion L as [X|p' l n' L' D' E' I' X]; [symmetry in X; now apply app_eq_nil in X as [_ X]|]. apply app_inj_tail in X as [-> ->].
    destruct D' as [->|D']; [now apply NE|congruence].
  - inversion L as [X|p' l n' L' D' E' I' X]; [symmetry in X; now apply app_eq_nil in X as [_ X]|]. apply app_inj_tail in X as [-> ->]. now apply (IH m).
Qed.
Lemma spelled_inj sanitize p q : p <> [] -> q <> [] -> Forall (plain_name sanitize) p -> Forall (plain_name sanitize) q -> spelled p = spelled q -> p = q.
Proof.
  intros A B F G E. assert (X : forall r, Forall (plain_name sanitize) r -> Forall (fun c => ~ In x2f c) r) by (intros r H; eapply Forall_impl; [|exact H]; now intros c (_ & Y & _)).
  rewrite <- (split_spelled p A (X _ F)), <- (split_spelled q B (X _ G)). now rewrite E.
Qed.
