(** Proofs about the upload example. *)
From Verif Require Import Base BaseFacts SpecUtf8 SpecArchive SpecRead SpecWrite SpecOrdinary Utf8 Utf8Facts ZString ZDate Headers ExtraField
  Entry IO IOFacts Reader EntryReader Writer EntryProofs AllWork Compress Multipart SpecMultipart.
From Verif Require RoundTrip BackProofs.

Lemma chunks_body {cd} l : forall (sw : stream_writer cd) w, write_chunks sw (map Some l) w =
  match stream_body sw (map SWriteAll l) w with (Ok sw, w) => (Done sw, w) | (Err e, w) => (Failed e, w) | (Panic p, w) => (Broke p, w) end.
Proof.
  induction l as [|b l IH]; intros sw w; [reflexivity|]. cbn [map write_chunks stream_body]. unfold bind. destruct (stream_write_all sw b w) as [r w1].
  destruct r; [apply IH|reflexivity|reflexivity].
Qed.
Lemma chunks_broken {cd} l r : forall (sw : stream_writer cd) w, write_chunks sw (map Some l ++ None :: r) w =
  match stream_body sw (map SWriteAll l) w with (Ok sw, w) => (Bail, w) | (Err e, w) => (Failed e, w) | (Panic p, w) => (Broke p, w) end.
Proof.
  induction l as [|b l IH]; intros sw w; [reflexivity|]. cbn [map app write_chunks stream_body]. unfold bind. destruct (stream_write_all sw b w) as [x w1].
  destruct x; [apply IH|reflexivity|reflexivity].
Qed.
Lemma chunks_cases (l : list (option bytes)) : (exists m, l = map Some m) \/ exists m r, l = map Some m ++ None :: r.
Proof.
  induction l as [|[b|] l IH]; [left; now exists []| |right; now exists [], l]. destruct IH as [(m & ->)|(m & r & ->)]; [left; now exists (b :: m)|right; now exists (b :: m), r].
Qed.
Lemma part_done cd sanitize u k (y : option bytes * list bytes) w w' :
  write_part cd sanitize (u k) {| pt_filename := fst y; pt_chunks := map Some (snd y) |} w = (Done tt, w') <->
  run_op cd (deposit sanitize u k y true) w = (Ok tt, w').
Proof.
  unfold write_part, deposit, known_as. cbn [pt_filename pt_chunks run_op]. unfold bind.
  destruct (stream_open cd false _ w) as [[sw| |] w1]; try (split; discriminate). rewrite chunks_body.
  destruct (stream_body sw (map SWriteAll (snd y)) w1) as [[sw'| |] w2]; try (split; discriminate). destruct (stream_close sw' w2) as [[[]| |] w3]; cbn [unwrapped]; split; try discriminate; intros X; now injection X as ->.
Qed.
Lemma parts_done cd sanitize u : forall l k w w', write_parts cd sanitize u k l w = (Done tt, w') ->
  exists ys, l = received ys /\ run_ops cd (deposits sanitize u k ys) w = (map (fun o => (o, Ok tt)) (deposits sanitize u k ys), w').
Proof.
  induction l as [|x l IH]; intros k w w' E; [cbn in E; injection E as ->; now exists []|]. destruct x as [[n c]|]; [|discriminate E]. cbn [write_parts] in E.
  destruct (write_part cd sanitize (u k) {| pt_filename := n; pt_chunks := c |} w) as [r w1] eqn:WP. destruct r as [[]| | |]; try discriminate E.
  destruct (IH _ _ _ E) as (ys & -> & R). destruct (chunks_cases c) as [(m & ->)|(m & r & ->)].
  - exists ((n, m) :: ys). split; [reflexivity|]. apply (part_done cd sanitize u k (n, m)) in WP. cbn [deposits run_ops map]. now rewrite WP, R.
  - exfalso. unfold write_part in WP. cbn [pt_filename pt_chunks] in WP. destruct (stream_open cd false _ w) as [[sw| |] w2]; try discriminate WP. rewrite chunks_broken in WP.
    destruct (stream_body sw (map SWriteAll m) w2) as [[sw'| |] w3]; discriminate WP.
Qed.
Lemma parts_app cd sanitize u r : forall ys k w w', run_ops cd (deposits sanitize u k ys) w = (map (fun o => (o, Ok tt)) (deposits sanitize u k ys), w') ->
  write_parts cd sanitize u k (received ys ++ r) w = write_parts cd sanitize u (k + len ys) r w'.
Proof.
  induction ys as [|y ys IH]; intros k w w' E.
  - cbn in E. injection E as ->. change (len (@nil (option bytes * list bytes))) with 0. now rewrite N.add_0_r.
  - cbn [deposits run_ops map] in E. destruct (run_op cd (deposit sanitize u k y true) w) as [x w1] eqn:RO.
    destruct (run_ops cd (deposits sanitize u (k + 1) ys) w1) as [xs w2] eqn:RS. injection E as E1 E2 E3. subst x xs w2.
    apply part_done in RO. cbn [received map app write_parts]. rewrite RO. cbn match. fold (received ys). rewrite (IH _ _ _ RS), len_cons. f_equal. lia.
Qed.
Lemma kept cd sched sanitize u creates shuts l w : create_archive cd sched sanitize u creates shuts l = (Done tt, Some w) ->
  exists ys, l = received ys /\ run_archive cd sched (deposits sanitize u 0 ys) = (map (fun o => (o, Ok tt)) (deposits sanitize u 0 ys), Ok tt, w).
Proof.
  unfold create_archive. destruct creates; [|discriminate]. cbn [negb]. cbn match.
  destruct (write_parts cd sanitize u 0 l (zw_new sched)) as [r w1] eqn:WP. destruct r as [[]| | |]; try discriminate. intros E.
  destruct (parts_done _ _ _ _ _ _ _ WP) as (ys & -> & R). exists ys. split; [reflexivity|]. unfold run_archive. rewrite R.
  destruct (zw_close w1) as [[[]| |] w2]; try discriminate E. destruct shuts; [|discriminate E]. now injection E as ->.
Qed.

(** ** the outcome *)
Lemma fed_len m : len (fed_bytes (map SWriteAll m)) = fold_right N.add 0 (map (fun b => len b) m).
Proof. induction m as [|b m IH]; [reflexivity|]. cbn [map fold_right]. rewrite <- IH. unfold fed_bytes. cbn [map concat]. now rewrite len_app. Qed.
Lemma deposit_handy sanitize u k y closed : good_names sanitize u -> len (fed_bytes (map SWriteAll (snd y))) < 0x10000000000000000 -> handy (deposit sanitize u k y closed).
Proof.
  intros [G1 G2] L. split; [discriminate|]. split; [|split; [discriminate|]].
  - split; [|exact L]. split; [|constructor]. repeat split; reflexivity.
  - unfold roomy. cbn [deposit op_entry entry_new en_extra en_filename en_comment zs_from_string zs_raw stored_bytes zs_alt].
    change (len (spec_extras [])) with 0. change (len (@nil byte)) with 0. unfold known_as. destruct (fst y) as [n|]; [specialize (G1 n)|specialize (G2 k)]; lia.
Qed.
Lemma deposits_handy sanitize u : good_names sanitize u -> forall ys k, holdings (received ys) < 0x10000000000000000 -> Forall handy (deposits sanitize u k ys).
Proof.
  intros G. induction ys as [|y ys IH]; intros k L; [constructor|]. unfold holdings in L. cbn [received map fold_right pt_chunks] in L.
  cbn [deposits]. constructor.
  - apply deposit_handy; [exact G|]. rewrite fed_len. rewrite map_map in L. lia.
  - apply IH. unfold holdings, received. lia.
Qed.
Lemma parts_cases (l : list (option part)) : (exists ys, l = received ys) \/
  exists ys r, l = received ys ++ r /\ (exists r', r = None :: r' \/ exists n m t, r = Some {| pt_filename := n; pt_chunks := map Some m ++ None :: t |} :: r').
Proof.
  induction l as [|[[n c]|] l IH]; [left; now exists []| |right; exists [], (None :: l); split; [reflexivity|]; exists l; now left].
  destruct (chunks_cases c) as [(m & ->)|(m & t & ->)].
  - destruct IH as [(ys & ->)|(ys & r & -> & H)]; [left; now exists ((n, m) :: ys)|]. right. exists ((n, m) :: ys), r. split; [reflexivity|exact H].
  - right. eexists [], _. split; [reflexivity|]. exists l. right. now exists n, m, t.
Qed.
Lemma holdings_app a b : holdings (a ++ b) = holdings a + holdings b.
Proof. unfold holdings. rewrite map_app. induction a as [|x a IH]; [reflexivity|]. cbn [map app fold_right]. rewrite IH. lia. Qed.
Lemma part_sum m t : fold_right N.add 0 (map (fun b : bytes => len b) m) <= fold_right N.add 0 (map (fun c : option bytes => match c with None => 0 | Some b => len b end) (map Some m ++ t)).
Proof. induction m as [|b m IH]; cbn [map app fold_right]; lia. Qed.
Lemma ops_work cd sched l : enc_takes cd -> obliging sched -> Forall handy l -> exists w, run_ops cd l (zw_new sched) = (map (fun o => (o, Ok tt)) l, w).
Proof.
  intros T OB H. pose proof (archive_works cd sched l T OB H) as AW. unfold run_archive in AW. destruct (run_ops cd l (zw_new sched)) as [xs w]. destruct (zw_close w).
  destruct AW as [-> _]. now exists w.
Qed.
Lemma run_ops_app cd a b w : run_ops cd (a ++ b) w = (let '(xs, w1) := run_ops cd a w in let '(ys, w2) := run_ops cd b w1 in (xs ++ ys, w2)).
Proof.
  revert w. induction a as [|o a IH]; intros w; cbn [app run_ops]; [now destruct (run_ops cd b w)|]. destruct (run_op cd o w) as [x w1]. rewrite IH.
  destruct (run_ops cd a w1) as [xs w2]. now destruct (run_ops cd b w2).
Qed.
Lemma form_outcome cd sched sanitize u creates shuts l : enc_takes cd -> obliging sched -> good_names sanitize u -> holdings l < 0x10000000000000000 ->
  let '(r, w) := create_archive cd sched sanitize u creates shuts l in
  (creates = false -> r = Bail /\ w = None) /\
  (creates = true -> (forall ys, l <> received ys) -> r = Bail) /\
  (creates = true -> (exists ys, l = received ys) -> r = if shuts then Done tt else Broke PUnwrap).
Proof.
  intros T OB G L. unfold create_archive. destruct creates; cbn [negb]; [|repeat split; discriminate]. cbn match.
  destruct (parts_cases l) as [(ys & ->)|(ys & r & -> & H)].
  - pose proof (archive_works cd sched (deposits sanitize u 0 ys) T OB (deposits_handy sanitize u G ys 0 L)) as AW. unfold run_archive in AW.
    destruct (run_ops cd (deposits sanitize u 0 ys) (zw_new sched)) as [xs w1] eqn:RO. destruct (zw_close w1) as [c w2] eqn:ZC. destruct AW as [-> ->].
    pose proof (parts_app cd sanitize u [] ys 0 _ _ RO) as PA. rewrite app_nil_r in PA. rewrite PA. cbn [write_parts]. rewrite ZC.
    split; [discriminate|]. split; [intros _ X; now elim (X ys)|reflexivity].
  - rewrite holdings_app in L. pose proof (deposits_handy sanitize u G ys 0 ltac:(lia)) as HA.
    assert (NR : forall zs, received ys ++ r <> received zs).
    { intros zs E. assert (Fz : Forall (fun x => exists n m, x = Some {| pt_filename := n; pt_chunks := map Some m |}) (received zs)).
      { apply Forall_map, Forall_forall. intros y _. now exists (fst y), (snd y). }
      rewrite <- E in Fz. apply Forall_app in Fz as [_ Fz]. destruct H as (r' & [->|(n & m & t & ->)]); apply Forall_inv in Fz as (n' & m' & X); [discriminate X|].
      injection X as _ X. clear - X. revert m' X. induction m as [|b m IH]; intros [|b' m'] X; try discriminate X. injection X as _ X. now apply (IH m'). }
    assert (BA : exists w2, write_parts cd sanitize u 0 (received ys ++ r) (zw_new sched) = (Bail, w2)).
    { destruct H as (r' & [->|(n & m & t & ->)]).
      - destruct (ops_work cd sched _ T OB HA) as (w1 & RO). rewrite (parts_app cd sanitize u _ ys 0 _ _ RO). cbn [write_parts]. now exists w1.
      - assert (HB : Forall handy (deposits sanitize u 0 ys ++ [deposit sanitize u (0 + len ys) (n, m) false])).
        { apply Forall_app. split; [exact HA|]. constructor; [|constructor]. apply deposit_handy; [exact G|]. cbn [snd]. rewrite fed_len.
          unfold holdings in L at 2. cbn [map fold_right pt_chunks] in L. pose proof (part_sum m (None :: t)). lia. }
        destruct (ops_work cd sched _ T OB HB) as (w1 & RO). rewrite run_ops_app in RO.
        destruct (run_ops cd (deposits sanitize u 0 ys) (zw_new sched)) as [xs w2] eqn:RO'. cbn [run_ops] in RO.
        destruct (run_op cd (deposit sanitize u (0 + len ys) (n, m) false) w2) as [x w3] eqn:RO2. rewrite map_app in RO. cbn [map] in RO.
        assert (XE : xs = map (fun o => (o, Ok tt)) (deposits sanitize u 0 ys) /\ x = Ok tt).
        { injection RO as RO _. apply app_inj_tail in RO as [X Y]. injection Y as Y. now split. }
        destruct XE as [-> ->]. rewrite (parts_app cd sanitize u _ ys 0 _ _ RO'). cbn [write_parts]. unfold write_part. cbn [pt_filename pt_chunks].
        unfold deposit, known_as in RO2. cbn [run_op fst snd] in RO2. unfold bind in RO2.
        destruct (stream_open cd false _ w2) as [[sw| |] w4]; try discriminate RO2. rewrite chunks_broken.
        destruct (stream_body sw (map SWriteAll m) w4) as [[sw'| |] w5]; try discriminate RO2. now exists w5. }
    destruct BA as (w2 & ->). split; [discriminate|]. split; [reflexivity|]. intros _ (zs & X). now elim (NR zs).
Qed.

(** ** what is found in the archive *)
Lemma nth_deposits sanitize u : forall ys k i y, nth_error ys i = Some y -> nth_error (deposits sanitize u k ys) i = Some (deposit sanitize u (k + N.of_nat i) y true).
Proof.
  induction ys as [|z ys IH]; intros k [|i] y E; try discriminate E; cbn [nth_error deposits] in *.
  - injection E as ->. now rewrite N.add_0_r.
  - rewrite (IH (k + 1) i y E). do 2 f_equal. lia.
Qed.
Lemma all_write sanitize u : forall ys k, filter writes_entry (deposits sanitize u k ys) = deposits sanitize u k ys.
Proof. induction ys as [|y ys IH]; intros k; [reflexivity|]. cbn [deposits filter deposit writes_entry]. now rewrite IH. Qed.
Lemma len_deposits sanitize u : forall ys k, len (deposits sanitize u k ys) = len ys.
Proof. induction ys as [|y ys IH]; intros k; [reflexivity|]. cbn [deposits]. now rewrite !len_cons, IH. Qed.
