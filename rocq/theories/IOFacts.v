(** Sources: what the read loops return under any schedule. *)
From Verif Require Import Base BaseFacts IO.
Arguments N.add : simpl never.
Arguments N.sub : simpl never.
Arguments N.min : simpl never.

(** cooperative source over [d] at position [p] *)
Definition src (d : bytes) (p : N) : source := {| s_data := d; s_pos := p; s_sched := [] |}.
(** the same source with the rest of its schedule forgotten *)
Definition calm (s : source) : source := src (s_data s) (s_pos s).

Definition is_fail (e : revent) : bool := match e with RFail _ => true | _ => false end.
Definition nofail (l : list revent) : Prop := Forall (fun e => is_fail e = false) l.
Lemma nofail_app a b : nofail (a ++ b) <-> nofail a /\ nofail b.
Proof. apply Forall_app. Qed.
Lemma nofail_nil : nofail []. Proof. constructor. Qed.
Local Hint Resolve nofail_nil : core.

Lemma calm_calm s : calm (calm s) = calm s. Proof. reflexivity. Qed.
Lemma calm_src d p : calm (src d p) = src d p. Proof. reflexivity. Qed.

(** Outcome of a computation relative to the fault-free one: some of the schedule is used up; the
    data never changes; either no failure was met and result and position are those of the
    cooperative run, or the last event used was a failure and its error is returned. *)
Definition agrees {A} (s : source) (m : SM source A) : Prop :=
  let '(r, s') := m s in
  let '(r0, s0) := m (calm s) in
  s0 = calm s0 /\ s_data s0 = s_data s /\ s_data s' = s_data s /\
  exists used, s_sched s = used ++ s_sched s' /\
    ((nofail used /\ r = r0 /\ calm s' = s0) \/
     (exists pre c, used = pre ++ [RFail c] /\ nofail pre /\ r = Err (UpstreamReadError (IoOther c)))).
Definition insens {A} (m : SM source A) : Prop := forall s, agrees s m.

Lemma insens_ret {A} (a : A) : insens (ret a).
Proof. intro s. unfold agrees, ret. repeat split; auto. exists []. split; [easy|]. left; auto. Qed.
Lemma insens_lift {A} (r : res A) : insens (lift r).
Proof. intro s. unfold agrees, lift. repeat split; auto. exists []. split; [easy|]. left; auto. Qed.
Lemma insens_fail {A} e : insens (@fail _ A e).
Proof. intro s. unfold agrees, fail. repeat split; auto. exists []. split; [easy|]. left; auto. Qed.

Lemma insens_bind {A B} (m : SM source A) (f : A -> SM source B) :
  insens m -> (forall a, insens (f a)) -> insens (bind m f).
Proof.
  intros Hm Hf s. unfold agrees, bind. specialize (Hm s). unfold agrees in Hm.
  destruct (m s) as [r s1] eqn:E1. destruct (m (calm s)) as [r0 s10] eqn:E0.
  destruct Hm as (C & D0 & D1 & used & Hu & [(Nf & -> & Cs)|(pre & c & -> & Np & ->)]).
  - destruct r0 as [a|e|p].
    + specialize (Hf a s1). unfold agrees in Hf. rewrite Cs in Hf.
      destruct (f a s1) as [r2 s2]. destruct (f a s10) as [r20 s20].
      destruct Hf as (C' & D0' & D1' & used' & Hu' & H).
      split; [easy|]. split; [congruence|]. split; [congruence|].
      exists (used ++ used'). rewrite <- app_assoc, <- Hu'. split; [easy|].
      destruct H as [(N1 & N2 & N3)|(pre & c & -> & Np & ->)].
      * left. split; [now apply nofail_app|]. auto.
      * right. exists (used ++ pre), c. rewrite app_assoc. split; [easy|]. split; [now apply nofail_app|easy].
    + repeat split; auto. exists used. split; [easy|]. left; auto.
    + repeat split; auto. exists used. split; [easy|]. left; auto.
  - assert (K : forall (x : res B * source), s_data (snd x) = s_data s -> snd x = calm (snd x) ->
      let '(r3, s3) := x in s3 = calm s3 /\ s_data s3 = s_data s /\ s_data s1 = s_data s /\
      exists used, s_sched s = used ++ s_sched s1 /\
        ((nofail used /\ Err (UpstreamReadError (IoOther c)) = r3 /\ calm s1 = s3) \/
         (exists pre c0, used = pre ++ [RFail c0] /\ nofail pre /\
            Err (UpstreamReadError (IoOther c)) = (Err (UpstreamReadError (IoOther c0)) : res B)))).
    { intros [r3 s3] Hd Hc. cbn [snd] in *. repeat split; auto. exists (pre ++ [RFail c]). split; [easy|].
      right. exists pre, c. auto. }
    destruct r0 as [a|e|p].
    + specialize (Hf a s10). unfold agrees in Hf. rewrite <- C in Hf.
      destruct (f a s10) as [r20 s20] eqn:E2. destruct Hf as (C' & D0' & _).
      apply (K (r20, s20)); cbn [snd]; congruence.
    + now apply (K (Err e, s10)).
    + now apply (K (Panic p, s10)).
Qed.

(** a computation that may look at the data (but not at the schedule) *)
Lemma insens_data {A} (m : bytes -> SM source A) : (forall d, insens (m d)) -> insens (fun s => m (s_data s) s).
Proof. intros H s. specialize (H (s_data s) s). exact H. Qed.

Lemma insens_seek_start p : insens (seek_start p).
Proof. intro s. unfold agrees, seek_start, calm; cbn. repeat split; auto. exists []. split; [easy|]. left; auto. Qed.
Lemma insens_seek_end : insens seek_end.
Proof. intro s. unfold agrees, seek_end, calm; cbn. repeat split; auto. exists []. split; [easy|]. left; auto. Qed.
Lemma insens_seek_current n : insens (seek_current n).
Proof.
  intro s. unfold agrees, seek_current, calm; cbn. destruct (_ <=? _); cbn; repeat split; auto;
  exists []; (split; [easy|]); left; auto.
Qed.

(** one [read] *)
Lemma read_poll_cases n : forall f s, (length (s_sched s) < f)%nat ->
  let '(r, s') := read_poll f n s in
  s_data s' = s_data s /\
  exists used, s_sched s = used ++ s_sched s' /\
    ((nofail used /\ exists k, k <= n /\ (0 < n -> 0 < k) /\ (used = [] -> k = n) /\
        r = Ok (take k (drop (s_pos s) (s_data s))) /\
        s_pos s' = s_pos s + len (take k (drop (s_pos s) (s_data s)))) \/
     (exists pre c, used = pre ++ [RFail c] /\ nofail pre /\ r = Err (UpstreamReadError (IoOther c)) /\ s_pos s' = s_pos s)).
Proof.
  induction f as [|f IH]; intros s Hf; [lia|].
  cbn [read_poll]. unfold poll_read. destruct (s_sched s) as [|ev q] eqn:E.
  - cbn [s_data s_pos s_sched]. split; [easy|]. exists []. split; [easy|]. left. split; [easy|].
    exists n. repeat split; try easy; lia.
  - destruct ev as [|k|c]; cbn [s_data s_pos s_sched].
    + specialize (IH {| s_data := s_data s; s_pos := s_pos s; s_sched := q |}). cbn [s_data s_pos s_sched] in IH.
      destruct (read_poll f n _) as [r s'].
      destruct IH as (D & used & Hu & H); [cbn [length] in Hf; lia|]. split; [easy|].
      exists (RPending :: used). rewrite Hu. split; [easy|].
      destruct H as [(Nf & k & H1 & H2 & H3 & H4 & H5)|(pre & c & -> & Np & H)].
      * left. split; [now constructor|]. exists k. repeat split; try easy.
      * right. exists (RPending :: pre), c. repeat split; try easy. now constructor.
    + split; [easy|]. exists [RChunk k]. split; [easy|]. left. split; [now repeat constructor|].
      exists (N.min n (k + 1)). repeat split; try easy; lia.
    + split; [easy|]. exists [RFail c]. split; [easy|]. right. exists [], c. auto.
Qed.

Lemma read_cases n s :
  let '(r, s') := read n s in
  s_data s' = s_data s /\
  exists used, s_sched s = used ++ s_sched s' /\
    ((nofail used /\ exists k, k <= n /\ (0 < n -> 0 < k) /\ (used = [] -> k = n) /\
        r = Ok (take k (drop (s_pos s) (s_data s))) /\
        s_pos s' = s_pos s + len (take k (drop (s_pos s) (s_data s)))) \/
     (exists pre c, used = pre ++ [RFail c] /\ nofail pre /\ r = Err (UpstreamReadError (IoOther c)) /\ s_pos s' = s_pos s)).
Proof. apply read_poll_cases. lia. Qed.

(** the two kinds of loops, in closed form *)
Definition avail (s : source) : bytes := drop (s_pos s) (s_data s).

Definition exact_result (n : N) (s : source) : res bytes :=
  if n <=? len (avail s) then Ok (take n (avail s)) else Err (UpstreamReadError UnexpectedEof).

Definition loop_outcome {A} (res0 : res A) (n : N) (s : source) (x : res A * source) : Prop :=
  let '(r, s') := x in
  s_data s' = s_data s /\
  exists used, s_sched s = used ++ s_sched s' /\
    ((nofail used /\ r = res0 /\ s_pos s' = s_pos s + N.min n (len (avail s))) \/
     (exists pre c, used = pre ++ [RFail c] /\ nofail pre /\ r = Err (UpstreamReadError (IoOther c)))).

Lemma avail_next s s' k : s_data s' = s_data s -> s_pos s' = s_pos s + len (take k (avail s)) ->
  avail s' = drop k (avail s).
Proof.
  intros D P. unfold avail in *. rewrite D, P, drop_drop. destruct (N.le_gt_cases k (len (drop (s_pos s) (s_data s)))).
  - rewrite len_take. f_equal. lia.
  - rewrite len_take. rewrite len_drop in *. rewrite !drop_all by lia. reflexivity.
Qed.

Lemma read_exact_loop_ok f : forall n s, (length (s_sched s) + 1 < f)%nat ->
  loop_outcome (exact_result n s) n s (read_exact_loop f n s).
Proof.
  induction f as [|f IH]; intros n s Hf; [lia|].
  cbn [read_exact_loop]. unfold loop_outcome, exact_result.
  destruct (n =? 0) eqn:E0.
  { apply N.eqb_eq in E0. subst n. unfold ret. split; [easy|]. exists []. split; [easy|]. left.
    rewrite take_0. replace (0 <=? len (avail s)) with true by lia. split; [easy|]. split; [easy|]. lia. }
  apply N.eqb_neq in E0. unfold bind at 1.
  pose proof (read_cases n s) as R. destruct (read n s) as [r s1].
  destruct R as (D & used & Hu & [(Nf & k & K1 & K2 & K3 & -> & Pk)|(pre & c & -> & Np & -> & P)]).
  2:{ split; [easy|]. exists (pre ++ [RFail c]). split; [easy|]. right. exists pre, c. auto. }
  fold (avail s) in *. rewrite len_take.
  destruct (N.min k (len (avail s)) =? 0) eqn:Ez.
  { unfold fail. split; [easy|]. exists used. split; [easy|]. left. split; [easy|].
    assert (len (avail s) = 0) by lia. rewrite len_take in Pk. replace (n <=? len (avail s)) with false by lia.
    split; [easy|]. lia. }
  unfold bind. specialize (IH (n - N.min k (len (avail s))) s1).
  pose proof (avail_next s s1 k D Pk) as AN. rewrite len_take in Pk.
  destruct used as [|ev used].
  - (* cooperative: everything arrived at once *)
    assert (k = n) by auto. subst k. clear K3 K2 K1. rewrite app_nil_l in Hu.
    destruct (N.le_gt_cases n (len (avail s))) as [Hle|Hgt].
    + replace (n - N.min n (len (avail s))) with 0 by lia. destruct f as [|f']; [lia|].
      cbn [read_exact_loop N.eqb]. change (0 =? 0) with true. cbn match. unfold ret. split; [easy|].
      exists []. split; [easy|]. left. replace (n <=? len (avail s)) with true by lia.
      rewrite app_nil_r. split; [easy|]. split; [easy|]. lia.
    + destruct f as [|f']; [lia|]. cbn [read_exact_loop].
      replace (n - N.min n (len (avail s)) =? 0) with false by lia. unfold bind.
      pose proof (read_cases (n - N.min n (len (avail s))) s1) as R. destruct (read _ s1) as [r s2].
      destruct R as (D2 & used & Hu2 & [(Nf2 & k & L1 & L2 & L3 & -> & Pk2)|(pre & c & -> & Np & -> & P)]).
      * fold (avail s1) in *. rewrite AN, drop_all in * by lia. rewrite take_nil in *. change (len (@nil byte)) with 0 in *.
        cbn [N.eqb]. unfold fail. split; [congruence|].
        exists used. split; [now rewrite Hu|]. left. split; [easy|].
        replace (n <=? len (avail s)) with false by lia. split; [easy|]. lia.
      * split; [congruence|]. exists (pre ++ [RFail c]). split; [now rewrite Hu|]. right. exists pre, c. auto.
  - destruct (read_exact_loop f (n - N.min k (len (avail s))) s1) as [r2 s2] eqn:E2.
    destruct IH as (D2 & used2 & Hu2 & H).
    { rewrite Hu, app_length in Hf. cbn [length] in Hf. lia. }
    unfold exact_result in H. rewrite AN, len_drop in H.
    destruct H as [(Nf2 & -> & P2)|(pre & c & -> & Np & ->)].
    + destruct (n - N.min k (len (avail s)) <=? len (avail s) - k) eqn:E3.
      * unfold ret. split; [congruence|]. exists ((ev :: used) ++ used2). rewrite <- app_assoc, <- Hu2. split; [easy|].
        left. split; [now apply nofail_app|]. replace (n <=? len (avail s)) with true by lia.
        split; [|lia]. f_equal. replace (n - N.min k (len (avail s))) with (n - k) by lia.
        rewrite <- take_add. f_equal. lia.
      * split; [congruence|]. exists ((ev :: used) ++ used2). rewrite <- app_assoc, <- Hu2. split; [easy|].
        left. split; [now apply nofail_app|]. replace (n <=? len (avail s)) with false by lia.
        split; [easy|]. lia.
    + split; [congruence|]. exists ((ev :: used) ++ pre ++ [RFail c]).
      rewrite <- app_assoc, <- Hu2. split; [easy|]. right. exists ((ev :: used) ++ pre), c.
      split; [now rewrite app_assoc|]. split; [now apply nofail_app|easy].
Qed.
Lemma read_exact_ok n s : loop_outcome (exact_result n s) n s (read_exact n s).
Proof. apply read_exact_loop_ok. lia. Qed.

Lemma read_to_end_loop_ok f : forall n s, (length (s_sched s) + 1 < f)%nat ->
  loop_outcome (Ok (take n (avail s))) n s (read_to_end_loop f n s).
Proof.
  induction f as [|f IH]; intros n s Hf; [lia|].
  cbn [read_to_end_loop]. unfold loop_outcome.
  destruct (n =? 0) eqn:E0.
  { apply N.eqb_eq in E0. subst n. unfold ret. split; [easy|]. exists []. split; [easy|]. left.
    rewrite take_0. split; [easy|]. split; [easy|]. lia. }
  apply N.eqb_neq in E0. unfold bind at 1.
  pose proof (read_cases n s) as R. destruct (read n s) as [r s1].
  destruct R as (D & used & Hu & [(Nf & k & K1 & K2 & K3 & -> & Pk)|(pre & c & -> & Np & -> & P)]).
  2:{ split; [easy|]. exists (pre ++ [RFail c]). split; [easy|]. right. exists pre, c. auto. }
  fold (avail s) in *. rewrite len_take.
  destruct (N.min k (len (avail s)) =? 0) eqn:Ez.
  { unfold ret. split; [easy|]. exists used. split; [easy|]. left. split; [easy|].
    assert (L : len (avail s) = 0) by lia. rewrite len_take in Pk. rewrite (len_0 _ L), take_nil.
    change (len (@nil byte)) with 0. split; [easy|]. rewrite L in Pk. lia. }
  unfold bind. specialize (IH (n - N.min k (len (avail s))) s1).
  pose proof (avail_next s s1 k D Pk) as AN. rewrite len_take in Pk.
  destruct used as [|ev used].
  - assert (k = n) by auto. subst k. clear K3 K2 K1. rewrite app_nil_l in Hu.
    destruct (N.le_gt_cases n (len (avail s))) as [Hle|Hgt].
    + replace (n - N.min n (len (avail s))) with 0 by lia. destruct f as [|f']; [lia|].
      cbn [read_to_end_loop]. change (0 =? 0) with true. cbn match. unfold ret. split; [easy|].
      exists []. split; [easy|]. left. rewrite app_nil_r. split; [easy|]. split; [easy|]. lia.
    + destruct f as [|f']; [lia|]. cbn [read_to_end_loop].
      replace (n - N.min n (len (avail s)) =? 0) with false by lia. unfold bind.
      pose proof (read_cases (n - N.min n (len (avail s))) s1) as R. destruct (read _ s1) as [r s2].
      destruct R as (D2 & used & Hu2 & [(Nf2 & k & L1 & L2 & L3 & -> & Pk2)|(pre & c & -> & Np & -> & P)]).
      * fold (avail s1) in *. rewrite AN, drop_all in * by lia. rewrite take_nil in *. change (len (@nil byte)) with 0 in *.
        cbn [N.eqb]. unfold ret. split; [congruence|].
        exists used. split; [now rewrite Hu|]. left. split; [easy|]. rewrite app_nil_r. split; [easy|]. lia.
      * split; [congruence|]. exists (pre ++ [RFail c]). split; [now rewrite Hu|]. right. exists pre, c. auto.
  - destruct (read_to_end_loop f (n - N.min k (len (avail s))) s1) as [r2 s2] eqn:E2.
    destruct IH as (D2 & used2 & Hu2 & H).
    { rewrite Hu, app_length in Hf. cbn [length] in Hf. lia. }
    rewrite AN, len_drop in H.
    destruct H as [(Nf2 & -> & P2)|(pre & c & -> & Np & ->)].
    + unfold ret. split; [congruence|]. exists ((ev :: used) ++ used2). rewrite <- app_assoc, <- Hu2. split; [easy|].
      left. split; [now apply nofail_app|].
      split; [|lia]. f_equal. destruct (N.le_gt_cases k (len (avail s))) as [Hk|Hk].
      * replace (n - N.min k (len (avail s))) with (n - k) by lia. rewrite <- take_add. f_equal. lia.
      * rewrite (drop_all k) by lia. rewrite take_nil, app_nil_r. rewrite !take_all by lia. reflexivity.
    + split; [congruence|]. exists ((ev :: used) ++ pre ++ [RFail c]).
      rewrite <- app_assoc, <- Hu2. split; [easy|]. right. exists ((ev :: used) ++ pre), c.
      split; [now rewrite app_assoc|]. split; [now apply nofail_app|easy].
Qed.
Lemma read_bytes_ok n s : loop_outcome (Ok (take n (avail s))) n s (read_bytes n s).
Proof. apply read_to_end_loop_ok. lia. Qed.

(** closed forms on a cooperative source *)
Lemma loop_calm {A} (r0 : res A) n d p x : loop_outcome r0 n (src d p) x ->
  x = (r0, src d (p + N.min n (len (drop p d)))).
Proof.
  destruct x as [r [d' p' q']]. intros (D & used & Hu & H). cbn [s_data s_sched s_pos src avail] in *.
  symmetry in Hu. apply app_eq_nil in Hu as [-> ->].
  destruct H as [(_ & -> & P)|(pre & c & E & _)]; [|now destruct pre].
  unfold src. subst. reflexivity.
Qed.
Lemma read_exact_calm n d p :
  read_exact n (src d p) = (exact_result n (src d p), src d (p + N.min n (len (drop p d)))).
Proof. apply loop_calm, read_exact_ok. Qed.
Lemma read_bytes_calm n d p :
  read_bytes n (src d p) = (Ok (take n (drop p d)), src d (p + N.min n (len (drop p d)))).
Proof. apply (loop_calm (Ok _)). apply (read_bytes_ok n (src d p)). Qed.

Lemma loop_insens {A} (m : N -> SM source A) (r0 : N -> source -> res A) :
  (forall n s, loop_outcome (r0 n s) n s (m n s)) -> (forall n s, r0 n (calm s) = r0 n s) ->
  forall n, insens (m n).
Proof.
  intros H Hc n s. unfold agrees. pose proof (H n s) as Hs.
  pose proof (H n (calm s)) as H0. unfold calm in H0. apply loop_calm in H0. fold (calm s) in H0.
  destruct (m n (calm s)) as [ra sa] eqn:Ea. injection H0 as -> ->.
  destruct (m n s) as [r s'] eqn:E.
  destruct Hs as (D & used & Hu & Hx). split; [easy|]. split; [easy|]. split; [easy|].
  exists used. split; [easy|]. destruct Hx as [(Nf & -> & P)|(pre & c & -> & Np & ->)].
  - left. split; [easy|]. split; [now rewrite Hc|].
    unfold calm. rewrite D, P. reflexivity.
  - right. exists pre, c. auto.
Qed.
Lemma insens_read_exact n : insens (read_exact n).
Proof. apply (loop_insens read_exact exact_result read_exact_ok). reflexivity. Qed.
Lemma insens_read_bytes n : insens (read_bytes n).
Proof. apply (loop_insens read_bytes (fun n s => Ok (take n (avail s))) read_bytes_ok). reflexivity. Qed.

(** convenient forms *)
Lemma read_exact_here n d p x y : drop p d = x ++ y -> len x = n ->
  read_exact n (src d p) = (Ok x, src d (p + n)).
Proof.
  intros E L. rewrite read_exact_calm. unfold exact_result, avail; cbn [s_data s_pos src].
  rewrite E, len_app. replace (n <=? len x + len y) with true by lia.
  rewrite take_app_exact by easy. do 2 f_equal. lia.
Qed.
Lemma read_bytes_here n d p x y : drop p d = x ++ y -> len x = n ->
  read_bytes n (src d p) = (Ok x, src d (p + n)).
Proof.
  intros E L. rewrite read_bytes_calm, E, len_app, take_app_exact by easy. do 2 f_equal. lia.
Qed.
Lemma drop_step {A} n p (d x y : list A) : drop p d = x ++ y -> len x = n -> drop (p + n) d = y.
Proof. intros E L. rewrite <- drop_drop, E. now apply drop_app_exact. Qed.
