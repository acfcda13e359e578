(** Counting the answers of a source. *)
From Verif Require Import Base BaseFacts Headers ExtraField Entry IO IOFacts Locator Reader EntryReader StreamReader SpecWork FeatureProofs.

Lemma answers_app a b : answers (a ++ b) = answers a + answers b.
Proof. unfold answers. now rewrite filter_app, len_app. Qed.
Definition answering (s : source) : N := answers (s_sched s).

(** [c]: answers at most *)
Definition within (s s' : source) (k : N) : Prop := s_data s' = s_data s /\ exists used, s_sched s = used ++ s_sched s' /\ answers used <= k.
Lemma within_refl s k : within s s k.
Proof. split; [easy|]. exists []. split; [easy|]. unfold answers, len. cbn. lia. Qed.
Lemma within_trans a b c j k n : within a b j -> within b c k -> j + k <= n -> within a c n.
Proof.
  intros (D1 & u & E1 & L1) (D2 & v & E2 & L2) H. split; [congruence|]. exists (u ++ v). rewrite <- app_assoc, <- E2. split; [easy|].
  rewrite answers_app. lia.
Qed.
Lemma within_le s s' j k : within s s' j -> j <= k -> within s s' k.
Proof. intros (D & u & E & L) H. split; [easy|]. exists u. split; [easy|]. lia. Qed.

(** one read is one answer *)
Lemma read_poll_work n : forall f s, within s (snd (read_poll f n s)) 1.
Proof.
  induction f as [|f IH]; intro s; [apply within_refl|]. cbn [read_poll]. unfold poll_read. destruct (s_sched s) as [|ev q] eqn:E.
  - split; [reflexivity|]. exists []. cbn [snd s_sched]. split; [easy|]. unfold answers, len. cbn. lia.
  - destruct ev as [|k|c].
    + destruct (IH {| s_data := s_data s; s_pos := s_pos s; s_sched := q |}) as (D & u & Eu & L). split; [exact D|].
      exists (RPending :: u). cbn [s_sched] in Eu. split; [rewrite E; cbn [app]; f_equal; exact Eu|exact L].
    + split; [reflexivity|]. exists [RChunk k]. split; [exact E|]. unfold answers, len. cbn. lia.
    + split; [reflexivity|]. exists [RFail c]. split; [exact E|]. unfold answers, len. cbn. lia.
Qed.
Lemma read_work n s : within s (snd (read n s)) 1.
Proof. apply read_poll_work. Qed.
Lemma read_moves n s b s' : read n s = (Ok b, s') -> s_pos s' = s_pos s + len b /\ len b <= n /\ len b <= len (avail s).
Proof.
  intro H. pose proof (read_cases n s) as C. rewrite H in C. destruct C as (D & used & _ & [(_ & k & K & _ & _ & R & P)|(pre & c & _ & _ & R & _)]); [|discriminate].
  inversion R as [B]. fold (avail s) in B, P |- *. rewrite P, len_take. repeat split; lia.
Qed.
Lemma read_stays n s r s' : read n s = (r, s') -> (forall b, r <> Ok b) -> s_pos s' = s_pos s.
Proof.
  intros H N. pose proof (read_cases n s) as C. rewrite H in C. destruct C as (D & used & _ & [(_ & k & K & _ & _ & R & P)|(pre & c & _ & _ & R & P)]); [|exact P].
  now apply N in R.
Qed.

(** a computation that only reads on: answers are paid for by bytes, save [j] of them when it ends in an error or at the end of the data *)
Definition good {A} (r : res A) : bool := match r with Ok _ => true | _ => false end.
Definition steady {A} (j : N) (m : SM source A) : Prop := forall s, let '(r, s') := m s in
  s_pos s <= s_pos s' /\ s_pos s' <= N.max (s_pos s) (len (s_data s)) /\
  within s s' (s_pos s' - s_pos s + (if good r && (s_pos s' <? len (s_data s)) then 0 else j)).
Lemma steady_ret {A} (a : A) : steady 0 (ret a).
Proof. intro s. cbn. repeat split; try lia. exists []. split; [easy|]. unfold answers, len. cbn. lia. Qed.
Lemma steady_lift {A} (r : res A) : steady 0 (lift r).
Proof. intro s. cbn. repeat split; try lia. exists []. split; [easy|]. unfold answers, len. cbn. lia. Qed.
Lemma steady_fail {A} e : steady 0 (@fail source A e).
Proof. intro s. cbn. repeat split; try lia. exists []. split; [easy|]. unfold answers, len. cbn. lia. Qed.
Lemma steady_le {A} j k (m : SM source A) : j <= k -> steady j m -> steady k m.
Proof.
  intros H S s. specialize (S s). destruct (m s) as [r s']. destruct S as (P1 & P2 & W). repeat split; auto; [apply W|].
  destruct W as (_ & W). destruct W as (u & E & L). exists u. split; [easy|]. destruct (_ && _); lia.
Qed.
Lemma steady_bind {A B} j k (m : SM source A) (f : A -> SM source B) : steady j m -> (forall a, steady k (f a)) -> steady (j + k) (bind m f).
Proof.
  intros Sm Sf s. specialize (Sm s). unfold bind. destruct (m s) as [[a|e|p] s1]; destruct Sm as (P1 & P2 & W1); cbn [good andb] in *.
  - specialize (Sf a s1). destruct (f a s1) as [r s2]. destruct Sf as (Q1 & Q2 & W2).
    assert (D : s_data s1 = s_data s) by apply W1. rewrite D in *.
    split; [lia|]. split; [lia|]. eapply within_trans; [exact W1|exact W2|].
    destruct (good r); cbn [andb]; repeat match goal with |- context[?a <? ?b] => destruct (a <? b) eqn:?; try lia end.
  - split; [lia|]. split; [lia|]. eapply within_le; [exact W1|lia].
  - split; [lia|]. split; [lia|]. eapply within_le; [exact W1|lia].
Qed.
Lemma avail_len s : len (avail s) = len (s_data s) - s_pos s.
Proof. unfold avail. apply len_drop. Qed.
Lemma exact_steady f : forall n, steady 1 (read_exact_loop f n).
Proof.
  induction f as [|f IH]; intro n; cbn [read_exact_loop]; [apply (steady_le 0); [lia|apply steady_lift]|].
  destruct (n =? 0); [apply (steady_le 0); [lia|apply steady_ret]|]. intro s. unfold bind at 1.
  pose proof (read_work n s) as W. destruct (read n s) as [[b|e|p] s1] eqn:R; cbn [snd] in W.
  - apply read_moves in R as (P & _ & L). rewrite avail_len in L. destruct (len b =? 0) eqn:Z.
    + cbn. split; [lia|]. split; [lia|]. eapply within_le; [exact W|lia].
    + pose proof (steady_bind 1 0 (read_exact_loop f (n - len b)) (fun r => ret (b ++ r)) (IH _) (fun a => steady_ret _) s1) as S.
      destruct (bind (read_exact_loop f (n - len b)) (fun r => ret (b ++ r)) s1) as [r s2]. destruct S as (Q1 & Q2 & W2).
      assert (D : s_data s1 = s_data s) by apply W. rewrite D in *. split; [lia|]. split; [lia|]. eapply within_trans; [exact W|exact W2|].
      destruct (_ && _); lia.
  - apply read_stays in R; [|discriminate]. cbn [good andb]. split; [lia|]. split; [lia|]. eapply within_le; [exact W|lia].
  - apply read_stays in R; [|discriminate]. cbn [good andb]. split; [lia|]. split; [lia|]. eapply within_le; [exact W|lia].
Qed.
Lemma read_exact_steady n : steady 1 (read_exact n).
Proof. intro s. exact (exact_steady _ n s). Qed.
Lemma read_empty n s b s' : read n s = (Ok b, s') -> 0 < n -> len b = 0 -> len (s_data s) <= s_pos s.
Proof.
  intros H N Z. pose proof (read_cases n s) as C. rewrite H in C. destruct C as (D & used & _ & [(_ & k & _ & K & _ & R & P)|(pre & c & _ & _ & R & _)]); [|discriminate].
  inversion R as [B]. rewrite B in Z. rewrite len_take, len_drop in Z. specialize (K N). lia.
Qed.
Lemma to_end_steady f : forall n, steady 1 (read_to_end_loop f n).
Proof.
  induction f as [|f IH]; intro n; cbn [read_to_end_loop]; [apply (steady_le 0); [lia|apply steady_lift]|].
  destruct (n =? 0) eqn:Zn; [apply (steady_le 0); [lia|apply steady_ret]|]. intro s. unfold bind at 1.
  pose proof (read_work n s) as W. destruct (read n s) as [[b|e|p] s1] eqn:R; cbn [snd] in W.
  - pose proof (read_empty _ _ _ _ R ltac:(lia)) as Em. apply read_moves in R as (P & _ & L). rewrite avail_len in L. destruct (len b =? 0) eqn:Z.
    + cbn. split; [lia|]. split; [lia|]. replace (_ <? _) with false by (symmetry; apply N.ltb_ge; lia). eapply within_le; [exact W|lia].
    + pose proof (steady_bind 1 0 (read_to_end_loop f (n - len b)) (fun r => ret (b ++ r)) (IH _) (fun a => steady_ret _) s1) as S.
      destruct (bind (read_to_end_loop f (n - len b)) (fun r => ret (b ++ r)) s1) as [r s2]. destruct S as (Q1 & Q2 & W2).
      assert (D : s_data s1 = s_data s) by apply W. rewrite D in *. split; [lia|]. split; [lia|]. eapply within_trans; [exact W|exact W2|].
      destruct (_ && _); lia.
  - apply read_stays in R; [|discriminate]. cbn [good andb]. split; [lia|]. split; [lia|]. eapply within_le; [exact W|lia].
  - apply read_stays in R; [|discriminate]. cbn [good andb]. split; [lia|]. split; [lia|]. eapply within_le; [exact W|lia].
Qed.
Lemma read_bytes_steady n : steady 1 (read_bytes n).
Proof. intro s. exact (to_end_steady _ n s). Qed.

Lemma signature_steady k : steady 1 (assert_signature k).
Proof.
  unfold assert_signature. apply (steady_le (1 + 0)); [lia|]. apply steady_bind; [apply read_exact_steady|]. intro b. cbv zeta.
  destruct (_ =? k); [apply steady_ret|apply steady_fail].
Qed.
Lemma cdr_steady : steady 1 cdr_from_reader.
Proof. unfold cdr_from_reader. apply (steady_le (1 + 0)); [lia|]. apply steady_bind; [apply read_exact_steady|]. intro. apply steady_ret. Qed.
Lemma lfh_steady : steady 1 lfh_from_reader.
Proof. unfold lfh_from_reader. apply (steady_le (1 + 0)); [lia|]. apply steady_bind; [apply read_exact_steady|]. intro. apply steady_ret. Qed.
Lemma record_steady cfg : steady 5 (cd_record cfg).
Proof.
  unfold cd_record. apply (steady_le (1 + (1 + (1 + (0 + (1 + (0 + (1 + 0)))))))); [lia|].
  apply steady_bind; [apply signature_steady|intro]. apply steady_bind; [apply cdr_steady|intro]. cbv zeta.
  apply steady_bind; [apply read_bytes_steady|intro]. apply steady_bind; [apply steady_lift|intro].
  apply steady_bind; [apply read_bytes_steady|intro]. apply steady_bind; [apply steady_lift|intro].
  apply steady_bind; [apply read_bytes_steady|intro]. destruct (get_combined_sizes _ _ _). apply steady_ret.
Qed.
(** past the end of the data nothing is read *)
Lemma record_past cfg s : len (s_data s) <= s_pos s -> let '(r, s') := cd_record cfg s in good r = false /\ within s s' 1.
Proof.
  intro H. unfold cd_record, assert_signature. unfold bind at 1. unfold bind at 1.
  assert (G : let '(r, s') := read_exact 4 s in good r = false /\ within s s' 1).
  { unfold read_exact. cbn [read_exact_loop]. change (4 =? 0) with false. cbn match. unfold bind at 1. pose proof (read_work 4 s) as W.
    destruct (read 4 s) as [[b|e|p] s1] eqn:R; cbn [snd] in W; [|now split|now split].
    apply read_moves in R as (_ & _ & L). rewrite avail_len in L. replace (len b =? 0) with true by (symmetry; apply N.eqb_eq; lia). now split. }
  destruct (read_exact 4 s) as [[b|e|p] s1]; [now destruct G|exact G|exact G].
Qed.
Lemma loop_work cfg : forall f n s, within s (snd (cd_loop cfg f n s)) (len (s_data s) - s_pos s + 6).
Proof.
  induction f as [|f IH]; intros n s; [apply within_refl|]. cbn [cd_loop]. destruct (n =? 0); [apply within_refl|].
  pose proof (record_steady cfg s) as S. pose proof (record_past cfg s) as Pa. rewrite bind_at. destruct (cd_record cfg s) as [[e|e|p] s1]; destruct S as (P1 & P2 & W).
  - destruct (N.le_gt_cases (len (s_data s)) (s_pos s)) as [G|G]; [destruct (Pa G) as [B _]; discriminate B|clear Pa].
    rewrite bind_at. assert (D : s_data s1 = s_data s) by apply W. cbn [good andb] in W.
    destruct (s_pos s1 <? len (s_data s)) eqn:E.
    + specialize (IH (n - 1) s1). destruct (cd_loop cfg f (n - 1) s1) as [[es|x|p] s2]; cbn [snd ret] in *; rewrite D in IH; (eapply within_trans; [exact W|exact IH|lia]).
    + destruct f as [|f]; [cbn; eapply within_le; [exact W|lia]|]. cbn [cd_loop]. destruct (n - 1 =? 0); [cbn; eapply within_le; [exact W|lia]|].
      pose proof (record_past cfg s1) as Pa. rewrite bind_at. destruct (cd_record cfg s1) as [[e2|x|p] s2]; (destruct Pa as [B W2]; [rewrite D; lia|]); [discriminate B| |];
        cbn [snd]; (eapply within_trans; [exact W|exact W2|lia]).
  - cbn [snd good andb] in *. eapply within_le; [exact W|]. lia.
  - cbn [snd good andb] in *. eapply within_le; [exact W|]. lia.
Qed.
Lemma cd_work cfg n s : within s (snd (cd cfg n s)) (len (s_data s) - s_pos s + 6).
Proof.
  unfold cd. rewrite bind_at. unfold lift. destruct (with_capacity cfg n); [|apply within_refl|apply within_refl]. rewrite bind_at. unfold get. apply loop_work.
Qed.

(** reading [n] bytes takes at most [n] answers *)
Lemma exact_within f : forall n s, within s (snd (read_exact_loop f n s)) n.
Proof.
  induction f as [|f IH]; intros n s; cbn [read_exact_loop]; [apply within_refl|]. destruct (n =? 0) eqn:Z; [apply within_refl|].
  rewrite bind_at. pose proof (read_work n s) as W. destruct (read n s) as [[b|e|p] s1] eqn:R; cbn [snd] in W |- *; [|eapply within_le; [exact W|lia]|eapply within_le; [exact W|lia]].
  apply read_moves in R as (_ & L & _). destruct (len b =? 0) eqn:B; [cbn [snd fail]; eapply within_le; [exact W|lia]|].
  specialize (IH (n - len b) s1). rewrite bind_at. destruct (read_exact_loop f (n - len b) s1) as [[r|e|p] s2]; cbn [snd ret] in *; (eapply within_trans; [exact W|exact IH|lia]).
Qed.
Lemma read_exact_within n s : within s (snd (read_exact n s)) n.
Proof. apply exact_within. Qed.
Lemma to_end_within f : forall n s, within s (snd (read_to_end_loop f n s)) n.
Proof.
  induction f as [|f IH]; intros n s; cbn [read_to_end_loop]; [apply within_refl|]. destruct (n =? 0) eqn:Z; [apply within_refl|].
  rewrite bind_at. pose proof (read_work n s) as W. destruct (read n s) as [[b|e|p] s1] eqn:R; cbn [snd] in W |- *; [|eapply within_le; [exact W|lia]|eapply within_le; [exact W|lia]].
  apply read_moves in R as (_ & L & _). destruct (len b =? 0) eqn:B; [cbn [snd ret]; eapply within_le; [exact W|lia]|].
  specialize (IH (n - len b) s1). rewrite bind_at. destruct (read_to_end_loop f (n - len b) s1) as [[r|e|p] s2]; cbn [snd ret] in *; (eapply within_trans; [exact W|exact IH|lia]).
Qed.
Lemma read_bytes_within n s : within s (snd (read_bytes n s)) n.
Proof. apply to_end_within. Qed.
Lemma fill_within f : forall n s, within s (snd (fill_loop f n s)) n.
Proof.
  induction f as [|f IH]; intros n s; cbn [fill_loop]; [apply within_refl|]. destruct (n =? 0) eqn:Z; [apply within_refl|].
  rewrite bind_at. pose proof (read_work n s) as W. destruct (read n s) as [[b|e|p] s1] eqn:R; cbn [snd] in W |- *; [|eapply within_le; [exact W|lia]|eapply within_le; [exact W|lia]].
  apply read_moves in R as (_ & L & _). destruct (len b =? 0) eqn:B; [cbn [snd ret]; eapply within_le; [exact W|lia]|].
  specialize (IH (n - len b) s1). rewrite bind_at. destruct (fill_loop f (n - len b) s1) as [[r|e|p] s2]; cbn [snd ret] in *; (eapply within_trans; [exact W|exact IH|lia]).
Qed.
Lemma seek_within p s : within s (snd (seek_start p s)) 0.
Proof. split; [reflexivity|]. exists []. split; [reflexivity|]. unfold answers, len. cbn. lia. Qed.

(** the windows of the locator *)
Definition windows (length position : N) : N := 1 + (position - (length - EOCDR_LOWER_BOUND) + 2043) / 2044.
Lemma locate_loop_work f : forall length position s, within s (snd (eocdr_loop f length position s)) (2048 * windows length position).
Proof.
  induction f as [|f IH]; intros length position s; cbn [eocdr_loop]; [apply within_refl|]. rewrite bind_at.
  pose proof (fill_within (S (S (List.length (s_sched s)))) BUFFER_SIZE s) as W. fold (fill s) in W.
  assert (O : 1 <= windows length position) by (unfold windows; lia). unfold BUFFER_SIZE in W.
  destruct (fill s) as [[b|e|p] s1]; cbn [snd] in W |- *; [|eapply within_le; [exact W|lia]|eapply within_le; [exact W|lia]].
  destruct (reverse_search_buffer b _); [cbn [snd ret]; eapply within_le; [exact W|lia]|].
  destruct ((position =? 0) || (position <=? length - EOCDR_LOWER_BOUND)) eqn:E; [cbn [snd fail]; eapply within_le; [exact W|lia]|].
  rewrite bind_at. unfold seek_start. set (q := position - (BUFFER_SIZE - SIGNATURE_LENGTH)).
  specialize (IH length q (set_pos s1 q)). pose proof (seek_within q s1) as K. unfold seek_start in K. cbn [snd] in K.
  eapply within_trans; [exact W|eapply within_trans; [exact K|exact IH|reflexivity]|].
  rewrite orb_false_iff in E. unfold q, windows, EOCDR_LOWER_BOUND, EOCDR_UPPER_BOUND, EOCDR_LENGTH, BUFFER_SIZE, SIGNATURE_LENGTH in *. lia.
Qed.
Lemma locate_work s : within s (snd (eocdr_locate s)) (2048 * 33).
Proof.
  unfold eocdr_locate, seek_end, seek_start. rewrite bind_at. cbv zeta. rewrite bind_at.
  match goal with |- context[eocdr_loop ?f ?a ?b ?q] => pose proof (locate_loop_work f a b q) as W; generalize dependent (eocdr_loop f a b q) end.
  intros x W. eapply within_le; [exact W|]. unfold windows, EOCDR_LOWER_BOUND, EOCDR_UPPER_BOUND, EOCDR_LENGTH, BUFFER_SIZE, SIGNATURE_LENGTH. lia.
Qed.

(** sums *)
Definition costs {A} (k : bytes -> N) (m : SM source A) : Prop := forall s, within s (snd (m s)) (k (s_data s)).
Lemma costs_bind {A B} j k (m : SM source A) (f : A -> SM source B) : costs j m -> (forall a, costs k (f a)) -> costs (fun d => j d + k d) (bind m f).
Proof.
  intros M F s. rewrite bind_at. specialize (M s). destruct (m s) as [[a|e|p] s1]; cbn [snd] in *; [|eapply within_le; [exact M|lia]|eapply within_le; [exact M|lia]].
  specialize (F a s1). assert (D : s_data s1 = s_data s) by apply M. rewrite D in F. eapply within_trans; [exact M|exact F|lia].
Qed.
Lemma costs_le {A} j k (m : SM source A) : (forall d, j d <= k d) -> costs j m -> costs k m.
Proof. intros H M s. eapply within_le; [apply M|apply H]. Qed.
Lemma costs_ret {A} (a : A) : costs (fun _ => 0) (ret a).
Proof. intro s. apply within_refl. Qed.
Lemma costs_lift {A} (r : res A) : costs (fun _ => 0) (lift r).
Proof. intro s. apply within_refl. Qed.
Lemma costs_fail {A} e : costs (fun _ => 0) (@fail source A e).
Proof. intro s. apply within_refl. Qed.
Lemma costs_seek p : costs (fun _ => 0) (seek_start p).
Proof. intro s. apply seek_within. Qed.
Lemma costs_exact n : costs (fun _ => n) (read_exact n).
Proof. intro s. apply read_exact_within. Qed.
Lemma costs_bytes n : costs (fun _ => n) (read_bytes n).
Proof. intro s. apply read_bytes_within. Qed.
Lemma costs_steady {A} j (m : SM source A) : steady j m -> costs (fun d => len d + j) m.
Proof.
  intros S s. specialize (S s). destruct (m s) as [r s']. destruct S as (P & Q & W). cbn [snd]. eapply within_le; [exact W|].
  destruct (_ && _); lia.
Qed.
Lemma sub_small a b v : N.of_nat (b - a) <= 2 -> from_le (sub a b v) <= 65535.
Proof.
  intro H. pose proof (sub_bound a b v) as B. assert (256 ^ N.of_nat (b - a) <= 256 ^ 2) by (apply N.pow_le_mono_r; lia). change (256 ^ 2) with 65536 in *. lia.
Qed.
Lemma file_work cfg : costs (fun d => len d + 133215) (file cfg).
Proof.
  apply (costs_le (fun d => 2048 * 33 + (0 + (18 + 65535 + (0 + 20 + 52 + (0 + (len d + 6 + 0))))))); [intro d; lia|].
  unfold file. apply (costs_bind (fun _ => 2048 * 33)); [intro s; apply locate_work|intro q].
  apply (costs_bind (fun _ => 0)); [apply costs_seek|intros _].
  assert (R : forall k (m : eocdr -> SM source zfile), (forall h, e_file_comm_length h <= 65535 -> costs k (m h)) -> costs (fun d => 18 + k d) (bind eocdr_from_reader m)).
  { intros k m H. unfold eocdr_from_reader. intro s. rewrite !bind_at. pose proof (read_exact_within 18 s) as W.
    destruct (read_exact 18 s) as [[b|e|p] s1]; cbn [snd] in *; [|eapply within_le; [exact W|lia]|eapply within_le; [exact W|lia]].
    specialize (H (eocdr_from b)). assert (D : s_data s1 = s_data s) by apply W. rewrite <- D. eapply within_trans; [exact W|apply H|lia].
    cbn [e_file_comm_length eocdr_from]. apply sub_small. cbn. lia. }
  apply (costs_le (fun d => 18 + (65535 + (0 + 20 + 52 + (0 + (len d + 6 + 0)))))); [intro d; lia|].
  apply (R (fun d => 65535 + (0 + 20 + 52 + (0 + (len d + 6 + 0))))). intros h Hh.
  apply (costs_bind (fun _ => 65535)).
  { unfold read_string. apply (costs_le (fun _ => e_file_comm_length h + 0)); [intro; lia|]. apply (costs_bind (fun _ => e_file_comm_length h)); [apply costs_bytes|intro; apply costs_ret]. }
  intro k. apply (costs_bind (fun _ => 0 + 20 + 52)).
  { destruct (q <? _); [apply (costs_le (fun _ => 0)); [intro; lia|apply costs_ret]|].
    apply (costs_le (fun _ => 0 + (20 + 52))); [intro; lia|]. apply (costs_bind (fun _ => 0)); [apply costs_seek|intros _].
    apply (costs_bind (fun _ => 20)).
    { unfold z64_eocdl_try_from_reader. apply (costs_le (fun _ => 4 + 16)); [intro; lia|]. apply (costs_bind (fun _ => 4)); [apply costs_exact|intro b].
      destruct (negb _); [apply (costs_le (fun _ => 0)); [intro; lia|apply costs_ret]|].
      apply (costs_le (fun _ => 16 + 0)); [intro; lia|]. apply (costs_bind (fun _ => 16)); [apply costs_exact|intro; apply costs_ret]. }
    intros [l|]; [|apply (costs_le (fun _ => 0)); [intro; lia|apply costs_ret]].
    apply (costs_le (fun _ => 0 + (0 + (52 + 0)))); [intro; lia|]. apply (costs_bind (fun _ => 0)); [apply costs_lift|intro].
    apply (costs_bind (fun _ => 0)); [apply costs_seek|intros _]. apply (costs_bind (fun _ => 52)); [|intro; apply costs_ret].
    unfold z64_eocdr_from_reader. apply (costs_le (fun _ => 52 + 0)); [intro; lia|]. apply (costs_bind (fun _ => 52)); [apply costs_exact|intro; apply costs_ret]. }
  intros [c z]. destruct (_ || _); [apply (costs_le (fun _ => 0)); [intro; lia|apply costs_fail]|].
  apply (costs_bind (fun _ => 0)); [apply costs_seek|intros _].
  apply (costs_bind (fun d => len d + 6)); [|intro; apply costs_ret]. intro s. eapply within_le; [apply cd_work|lia].
Qed.
Lemma opening_work cfg s : let '(r, s') := file cfg s in worked s s' (len (s_data s) + 133215).
Proof. pose proof (file_work cfg s) as W. destruct (file cfg s) as [r s']. exact (proj2 W). Qed.

(** local headers *)
Lemma local_steady cfg : steady 4 (lfh_read cfg).
Proof.
  unfold lfh_read. apply (steady_le (1 + 3)); [lia|]. apply steady_bind; [apply read_exact_steady|intro sig]. cbv zeta.
  destruct (_ =? CDH_SIGNATURE); [apply (steady_le 0); [lia|apply steady_ret]|].
  destruct (negb _); [apply (steady_le 0); [lia|apply steady_fail]|].
  apply (steady_le (1 + (1 + (0 + (1 + (0 + 0)))))); [lia|].
  apply steady_bind; [apply lfh_steady|intro]. apply steady_bind; [apply read_bytes_steady|intro]. apply steady_bind; [apply steady_lift|intro].
  apply steady_bind; [apply read_bytes_steady|intro]. apply steady_bind; [apply steady_lift|intro]. destruct (get_combined_sizes _ _ _).
  destruct (_ && _); [apply steady_fail|]. destruct (gp_encrypted _); [apply steady_fail|apply steady_ret].
Qed.
Lemma next_work cfg s : let '(r, s') := stream_next cfg s in
  s_pos s <= s_pos s' /\ worked s s' (s_pos s' - s_pos s + 4) /\
  (is_ok r = true -> s_pos s' < len (s_data s) -> worked s s' (s_pos s' - s_pos s)).
Proof.
  pose proof (local_steady cfg s) as S. unfold stream_next. destruct (lfh_read cfg s) as [[[e|]|e|p] s']; destruct S as (P & Q & _ & u & E & L); cbn [is_ok good andb] in *;
  (split; [exact P|]); (split; [exists u; split; [exact E|]; try destruct (_ <? _); lia|]); try discriminate; intros _ H; exists u; (split; [exact E|]);
  replace (_ <? _) with true in L by (symmetry; apply N.ltb_lt; exact H); lia.
Qed.

(** stored data *)
Lemma stored_poll cd n : forall f r, er_comp r = Stored ->
  let '(x, r') := er_read_poll cd f n r in
  er_comp r' = Stored /\ within (er_src r) (er_src r') (N.min 1 (er_limit r)) /\
  match x with Ok b => er_limit r = er_limit r' + len b | _ => er_limit r' <= er_limit r end.
Proof.
  induction f as [|f IH]; intros r S; cbn [er_read_poll]; [repeat split; auto; [apply within_refl|lia]|].
  unfold er_poll_read, inner_poll_read. rewrite S. destruct (er_limit r =? 0) eqn:Z.
  { cbn. repeat split; auto; [apply within_refl|]. unfold len. cbn. lia. }
  replace (N.min 1 (er_limit r)) with 1 in * by lia.
  unfold poll_read. destruct (s_sched (er_src r)) as [|ev q] eqn:E.
  - cbn [er_src er_comp er_limit set_hash]. repeat split; auto.
    + exists []. cbn [s_sched]. split; [easy|]. unfold answers, len. cbn. lia.
    + rewrite len_take. lia.
  - destruct ev as [|k|c].
    + match goal with |- context[er_read_poll cd f n ?r1] => specialize (IH r1 eq_refl); destruct (er_read_poll cd f n r1) as [x r'] end.
      cbn [er_src er_limit] in IH. destruct IH as (C & (D & u & Eu & L) & M). rewrite N.sub_0_r in *. cbn [s_data s_sched] in *.
      split; [easy|]. split; [|exact M]. split; [exact D|]. exists (RPending :: u). split; [rewrite E; cbn [app]; now f_equal|].
      change (answers (RPending :: u)) with (answers u). lia.
    + cbn [er_src er_comp er_limit set_hash]. repeat split; auto.
      * exists [RChunk k]. cbn [s_sched]. split; [easy|]. unfold answers, len. cbn. lia.
      * rewrite len_take. lia.
    + cbn [er_src er_comp er_limit]. repeat split; auto; [|lia]. exists [RFail c]. cbn [s_sched]. split; [easy|]. unfold answers, len. cbn. lia.
Qed.
Lemma stored_loop cd : forall f r, er_comp r = Stored ->
  let '(x, r') := er_read_to_end_loop cd f r in within (er_src r) (er_src r') (er_limit r + 1) /\
  match x with Ok b => within (er_src r) (er_src r') (len b + 1) | _ => True end.
Proof.
  induction f as [|f IH]; intros r S; cbn [er_read_to_end_loop]; [split; [apply within_refl|exact I]|]. unfold er_read, bind at 1.
  pose proof (stored_poll cd u64_max (Datatypes.S (length (s_sched (er_src r)))) r S) as P.
  destruct (er_read_poll cd _ u64_max r) as [[b|e|p] r1]; destruct P as (S1 & W & L).
  - destruct (len b =? 0) eqn:Z; [cbn; split; (eapply within_le; [exact W|lia])|]. specialize (IH r1 S1). unfold bind.
    destruct (er_read_to_end_loop cd f r1) as [[x|e|p] r2]; destruct IH as (W2 & W3); cbn [ret].
    + split; [eapply within_trans; [exact W|exact W2|lia]|]. eapply within_trans; [exact W|exact W3|]. rewrite len_app. lia.
    + split; [eapply within_trans; [exact W|exact W2|lia]|exact I].
    + split; [eapply within_trans; [exact W|exact W2|lia]|exact I].
  - split; [eapply within_le; [exact W|lia]|exact I].
  - split; [eapply within_le; [exact W|lia]|exact I].
Qed.
Lemma data_offset_work e : costs (fun _ => 30) (seek_to_data_offset e).
Proof.
  unfold seek_to_data_offset. apply (costs_le (fun _ => 0 + (4 + (26 + 0)))); [intro; lia|]. apply (costs_bind (fun _ => 0)); [apply costs_seek|intros _].
  apply (costs_bind (fun _ => 4)); [apply costs_exact|intro]. cbv zeta. destruct (negb _); [apply (costs_le (fun _ => 0)); [intro; lia|apply costs_fail]|].
  apply (costs_bind (fun _ => 26)).
  { unfold lfh_from_reader. apply (costs_le (fun _ => 26 + 0)); [intro; lia|]. apply (costs_bind (fun _ => 26)); [apply costs_exact|intro; apply costs_ret]. }
  intro. apply (costs_le (fun _ => 0 + 0)); [intro; lia|]. apply (costs_bind (fun _ => 0)); [|intro; apply costs_ret].
  intro s. unfold seek_current. destruct (_ <=? _); [|apply within_refl]. split; [reflexivity|]. exists []. split; [reflexivity|]. unfold answers, len. cbn. lia.
Qed.
Lemma entry_work cd f i s r e s' : seek_reader_at f i s = (Ok (r, e), s') -> en_compression (st_entry e) = Stored ->
  let '(x, r') := er_read_to_end_checked cd (st_entry e) r in worked s (er_src r') (en_compressed_size (st_entry e) + 31).
Proof.
  unfold seek_reader_at. destruct (entry_at f i) as [e1|]; [|discriminate]. intros H C.
  rewrite bind_at in H. pose proof (data_offset_work e1 s) as W. destruct (seek_to_data_offset e1 s) as [[[]|?|?] s1]; try discriminate H. cbn [snd] in W.
  rewrite bind_at in H. unfold get, ret in H. inversion H; subst r e1 s1. clear H.
  unfold er_read_to_end_checked, er_read_to_end. unfold bind at 1.
  match goal with |- context[er_read_to_end_loop cd ?k ?r0] => pose proof (stored_loop cd k r0 C) as L; destruct (er_read_to_end_loop cd k r0) as [[b|?|?] r1] end;
    destruct L as [L _]; cbn [er_new er_src er_limit] in L.
  - unfold bind, er_compute_hash. destruct (_ =? _); cbn; (eapply (within_trans _ _ _ _ _ _ W) in L; [exact (proj2 L)|]); lia.
  - eapply (within_trans _ _ _ _ _ _ W) in L; [exact (proj2 L)|]; lia.
  - eapply (within_trans _ _ _ _ _ _ W) in L; [exact (proj2 L)|]; lia.
Qed.
