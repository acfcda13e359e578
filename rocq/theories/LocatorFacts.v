(** The end of central directory locator finds the last occurrence of the signature. *)
From Verif Require Import Base BaseFacts Headers IO IOFacts Locator.
Arguments N.add : simpl never.
Arguments N.sub : simpl never.
Arguments N.min : simpl never.

(** [sig] occurs in [d] starting at offset [p] *)
Definition occurs (sig d : bytes) (p : N) : Prop := exists a b, d = a ++ sig ++ b /\ len a = p.

Lemma occurs_iff sig d p : occurs sig d p <-> p + len sig <= len d /\ take (len sig) (drop p d) = sig.
Proof.
  split.
  - intros (a & b & -> & <-). rewrite !len_app. split; [lia|].
    rewrite drop_app_exact by easy. now apply take_app_exact.
  - intros (L & T). exists (take p d), (drop (p + len sig) d). split.
    + rewrite <- drop_drop. rewrite <- T at 1. now rewrite take_drop, take_drop.
    + rewrite len_take. lia.
Qed.

Lemma match_back_spec buffer index : index < len buffer -> forall rsig sidx, sidx <= index + 1 ->
  match match_back buffer rsig index sidx with
  | RMatch => sidx + len rsig <= index + 1 /\
              take (len rsig) (drop (index + 1 - sidx - len rsig) buffer) = rev rsig
  | RMiss => ~ (sidx + len rsig <= index + 1 /\
              take (len rsig) (drop (index + 1 - sidx - len rsig) buffer) = rev rsig)
  | RStop => index + 1 < sidx + len rsig
  end.
Proof.
  intros Hi. induction rsig as [|sb rest IH]; intros sidx Hs.
  - cbn [match_back]. change (len (@nil byte)) with 0. rewrite take_0. split; [lia|easy].
  - cbn [match_back]. rewrite len_cons. destruct (sidx <=? index) eqn:E; [|lia].
    assert (P : forall x tl, drop (index - sidx) buffer = x :: tl ->
      sidx + (1 + len rest) <= index + 1 ->
      take (1 + len rest) (drop (index + 1 - sidx - (1 + len rest)) buffer) =
      take (len rest) (drop (index + 1 - (sidx + 1) - len rest) buffer) ++ [x]).
    { intros x tl Hx Hle. rewrite (N.add_comm 1), take_add. f_equal; [do 2 f_equal; lia|].
      rewrite drop_drop. replace (index + 1 - sidx - (len rest + 1) + len rest) with (index - sidx) by lia.
      rewrite Hx. change (take 1 (x :: tl)) with (x :: take 0 tl). now rewrite take_0. }
    destruct (drop (index - sidx) buffer) as [|x tl] eqn:Ed.
    { pose proof (len_drop (index - sidx) buffer) as L. rewrite Ed in L. change (len (@nil byte)) with 0 in L. lia. }
    specialize (P x tl eq_refl). cbn [rev].
    destruct (b2n x =? b2n sb) eqn:Ex.
    + apply N.eqb_eq, b2n_inj in Ex. subst x. specialize (IH (sidx + 1) ltac:(lia)).
      destruct (match_back buffer rest index (sidx + 1)).
      * destruct IH as [I1 I2]. split; [lia|]. rewrite P by lia. now rewrite I2.
      * intros [L T]. rewrite P in T by lia. apply app_inj_tail in T as [T _]. apply IH. split; [lia|easy].
      * lia.
    + apply N.eqb_neq in Ex. intros [L T]. rewrite P in T by lia. apply app_inj_tail in T as [_ T]. now subst.
Qed.

Lemma search_down_spec buffer sig : sig <> [] -> forall c, (c <= length buffer)%nat ->
  match search_down buffer (rev sig) c with
  | Some i => (N.to_nat i < c)%nat /\ len sig <= i + 1 /\ occurs sig buffer (i + 1 - len sig) /\
              forall p, occurs sig buffer p -> p + len sig <= N.of_nat c -> p + len sig <= i + 1
  | None => forall p, occurs sig buffer p -> N.of_nat c < p + len sig
  end.
Proof.
  intros Hne. assert (0 < len sig) by (destruct sig; [easy|rewrite len_cons; lia]).
  assert (LR : len (rev sig) = len sig) by (unfold len; now rewrite rev_length).
  induction c as [|c IH]; intro Hc; cbn [search_down].
  { intros p Hp. lia. }
  assert (Hi : N.of_nat c < len buffer) by (unfold len; lia).
  pose proof (match_back_spec buffer (N.of_nat c) Hi (rev sig) 0 ltac:(lia)) as M.
  rewrite rev_involutive, LR in M.
  destruct (match_back buffer (rev sig) (N.of_nat c) 0).
  - destruct M as [M1 M2]. split; [lia|]. split; [lia|]. split.
    + apply occurs_iff. split; [lia|]. etransitivity; [|exact M2]. do 2 f_equal; lia.
    + intros p _ Hp. lia.
  - assert (NO : forall p, occurs sig buffer p -> p + len sig <> N.of_nat (S c)).
    { intros p Hp E. apply M. apply occurs_iff in Hp as [P1 P2]. split; [lia|].
      etransitivity; [|exact P2]. do 2 f_equal; lia. }
    specialize (IH ltac:(lia)). destruct (search_down buffer (rev sig) c) as [i|].
    + destruct IH as (I1 & I2 & I3 & I4). split; [lia|]. split; [easy|]. split; [easy|].
      intros p Hp Hle. specialize (NO p Hp). apply I4; [easy|lia].
    + intros p Hp. specialize (NO p Hp). specialize (IH p Hp). lia.
  - intros p Hp.
    destruct (N.le_gt_cases (p + len sig) (N.of_nat (S c))); lia.
Qed.

Lemma reverse_search_spec buffer sig : sig <> [] ->
  match reverse_search_buffer buffer sig with
  | Some i => len sig <= i + 1 /\ occurs sig buffer (i + 1 - len sig) /\
              forall p, occurs sig buffer p -> p <= i + 1 - len sig
  | None => forall p, ~ occurs sig buffer p
  end.
Proof.
  intros Hne. unfold reverse_search_buffer. pose proof (search_down_spec buffer sig Hne (length buffer) (le_n _)) as S.
  destruct (search_down _ _ _) as [i|].
  - destruct S as (S1 & S2 & S3 & S4). split; [easy|]. split; [easy|].
    intros p Hp. assert (p + len sig <= N.of_nat (length buffer)) by (apply occurs_iff in Hp as [? _]; unfold len in *; lia).
    specialize (S4 p Hp ltac:(easy)). lia.
  - intros p Hp. specialize (S p Hp). apply occurs_iff in Hp as [? _]. unfold len in *. lia.
Qed.

Definition EOCDR_SIG : bytes := to_le 4 EOCDR_SIGNATURE.

(** the locator run on the cooperative source over [d] *)
Definition locate (d : bytes) (p : N) : res N := fst (eocdr_locate (src d p)).

Lemma occurs_window sig d a n p : 0 < len sig -> occurs sig (take n (drop a d)) p -> occurs sig d (a + p) /\ p + len sig <= n.
Proof.
  intros Z H. apply occurs_iff in H as [L T]. rewrite len_take, len_drop in L. split; [|lia].
  apply occurs_iff.
  split; [lia|]. etransitivity; [|exact T]. rewrite drop_take, take_take, drop_drop. f_equal. lia.
Qed.
Lemma window_occurs sig d a n p : 0 < len sig -> occurs sig d p -> a <= p -> p + len sig <= a + n ->
  occurs sig (take n (drop a d)) (p - a).
Proof.
  intros Z H L1 L2. apply occurs_iff in H as [H1 H2]. apply occurs_iff. rewrite len_take, len_drop. split; [lia|].
  etransitivity; [|exact H2]. rewrite drop_take, take_take, drop_drop. f_equal; [lia|]. f_equal. lia.
Qed.

Lemma fill_calm d p : fill (src d p) = (Ok (take 2048 (drop p d)), src d (p + N.min 2048 (len (drop p d)))).
Proof. exact (read_bytes_calm 2048 d p). Qed.
Lemma insens_fill : insens fill. Proof. exact (insens_read_bytes 2048). Qed.

Lemma eocdr_loop_spec d : forall f position,
  position <= len d ->
  (forall p, occurs EOCDR_SIG d p -> p <= position + 2044) ->
  position + 2044 <= (len d - 65557) + 2044 * N.of_nat f ->
  (0 < f)%nat ->
  exists r s', eocdr_loop f (len d) position (src d position) = (r, s') /\ s' = calm s' /\ s_data s' = d /\
  ((exists q, r = Ok q /\ 4 <= q /\
     occurs EOCDR_SIG d (q - 4) /\ forall p, occurs EOCDR_SIG d p -> p <= q - 4) \/
   (r = Err UnableToLocateEOCDR /\ forall p, occurs EOCDR_SIG d p -> p < len d - 65557)).
Proof.
  assert (LS : len EOCDR_SIG = 4) by reflexivity.
  induction f as [|f IH]; intros position Hpos Hno Hf Hf0; [lia|].
  cbn [eocdr_loop]. unfold bind at 1. rewrite fill_calm.
  fold EOCDR_SIG. pose proof (reverse_search_spec (take 2048 (drop position d)) EOCDR_SIG ltac:(easy)) as R.
  rewrite LS in R. destruct (reverse_search_buffer _ _) as [i|].
  - destruct R as (R1 & R2 & R3). eexists _, _. split; [reflexivity|]. split; [easy|]. split; [easy|].
    left. eexists. split; [reflexivity|].
    split; [lia|]. apply occurs_window in R2 as [R2 R2']; [|lia]. rewrite LS in R2'. split.
    + replace (position + (i + 1) - 4) with (position + (i + 1 - 4)) by lia. exact R2.
    + intros p Hp. destruct (N.le_gt_cases p position); [lia|].
      specialize (R3 (p - position)). pose proof (Hno p Hp).
      pose proof (window_occurs EOCDR_SIG d position 2048 p ltac:(lia) Hp ltac:(lia) ltac:(lia)) as W.
      specialize (R3 W). lia.
  - assert (Hno' : forall p, occurs EOCDR_SIG d p -> p < position).
    { intros p Hp. destruct (N.le_gt_cases position p) as [Hle|]; [exfalso|easy].
      apply (R (p - position)). apply window_occurs; [lia|easy|easy|]. specialize (Hno p Hp). lia. }
    change EOCDR_LOWER_BOUND with 65557. change (BUFFER_SIZE - SIGNATURE_LENGTH) with 2044.
    destruct ((position =? 0) || (position <=? len d - 65557)) eqn:E.
    + eexists _, _. split; [reflexivity|]. split; [easy|]. split; [easy|]. right. split; [reflexivity|].
      intros p Hp. specialize (Hno' p Hp). lia.
    + unfold bind at 1, seek_start, set_pos. cbn [s_data s_pos s_sched src].
      change {| s_data := d; s_pos := position - 2044; s_sched := [] |} with (src d (position - 2044)).
      destruct f as [|f']; [lia|].
      apply IH; try lia. intros p Hp. specialize (Hno' p Hp). lia.
Qed.

(** the fuel of the locator is enough, and the answer is the last occurrence *)
Lemma locate_spec d p0 :
  (exists q, locate d p0 = Ok q /\ 4 <= q /\ occurs EOCDR_SIG d (q - 4) /\
     forall p, occurs EOCDR_SIG d p -> p <= q - 4) \/
  (locate d p0 = Err UnableToLocateEOCDR /\ forall p, occurs EOCDR_SIG d p -> p < len d - 65557).
Proof.
  unfold locate, eocdr_locate, bind, seek_end, seek_start, set_pos; cbn [s_data s_pos s_sched src].
  change BUFFER_SIZE with 2048.
  change {| s_data := d; s_pos := len d - 2048; s_sched := [] |} with (src d (len d - 2048)).
  destruct (eocdr_loop_spec d 64 (len d - 2048)) as (r & s' & -> & _ & _ & H); try lia.
  { intros p Hp. apply occurs_iff in Hp as [L _]. change (len EOCDR_SIG) with 4 in L. lia. }
  destruct H as [(q & -> & H)|(-> & H)]; [left; exists q; auto|right; auto].
Qed.

Lemma insens_eocdr_loop f : forall length position, insens (eocdr_loop f length position).
Proof.
  induction f as [|f IH]; intros l p; cbn [eocdr_loop]; [apply insens_lift|].
  apply insens_bind; [apply insens_fill|]. intro b. destruct (reverse_search_buffer _ _); [apply insens_ret|].
  destruct (_ || _); [apply insens_fail|]. apply insens_bind; [apply insens_seek_start|]. intros _. apply IH.
Qed.
Lemma insens_locate : insens eocdr_locate.
Proof.
  apply insens_bind; [apply insens_seek_end|]. intro l.
  apply insens_bind; [apply insens_seek_start|]. intros _. apply insens_eocdr_loop.
Qed.

(** The file position plays no part, and the data is unchanged: rewriting form. *)
Lemma eocdr_locate_calm d p0 q : locate d p0 = Ok q -> exists p1, eocdr_locate (src d p0) = (Ok q, src d p1).
Proof.
  unfold locate. intro H. pose proof (insens_locate (src d p0)) as I. unfold agrees in I.
  rewrite calm_src in I. destruct (eocdr_locate (src d p0)) as [r s]. cbn [fst] in H. subst r.
  destruct I as (C & D & _). exists (s_pos s). rewrite C. unfold calm. now rewrite D.
Qed.
Lemma locate_last d p0 p : occurs EOCDR_SIG d p -> (forall q, occurs EOCDR_SIG d q -> q <= p) -> len d <= p + 65557 ->
  locate d p0 = Ok (p + 4).
Proof.
  intros H M L. destruct (locate_spec d p0) as [(q & E & L4 & O & Mx)|(E & Hno)].
  - rewrite E. f_equal. specialize (M _ O). specialize (Mx _ H). lia.
  - specialize (Hno p H). lia.
Qed.

(** nothing further than 65557 + 2044 bytes from the end is looked at *)
Lemma eocdr_loop_low d : forall f position q s', len d - 67601 <= position ->
  eocdr_loop f (len d) position (src d position) = (Ok q, s') -> len d - 67601 + 4 <= q.
Proof.
  induction f as [|f IH]; intros position q s' Hp H; [discriminate|]. cbn [eocdr_loop] in H.
  unfold bind at 1 in H. rewrite fill_calm in H. fold EOCDR_SIG in H.
  pose proof (reverse_search_spec (take 2048 (drop position d)) EOCDR_SIG ltac:(easy)) as R.
  change (len EOCDR_SIG) with 4 in R. destruct (reverse_search_buffer _ _) as [i|].
  - destruct R as (R1 & _ & _). injection H as <- _. lia.
  - change EOCDR_LOWER_BOUND with 65557 in H. change (BUFFER_SIZE - SIGNATURE_LENGTH) with 2044 in H.
    destruct ((position =? 0) || (position <=? len d - 65557)) eqn:E; [discriminate|].
    unfold bind at 1, seek_start, set_pos in H. cbn [s_data s_pos s_sched src] in H.
    change {| s_data := d; s_pos := position - 2044; s_sched := [] |} with (src d (position - 2044)) in H.
    eapply IH; [|exact H]. lia.
Qed.
Lemma locate_low d p0 q : locate d p0 = Ok q -> len d - 67601 + 4 <= q.
Proof.
  unfold locate, eocdr_locate, bind, seek_end, seek_start, set_pos; cbn [s_data s_pos s_sched src].
  change BUFFER_SIZE with 2048.
  change {| s_data := d; s_pos := len d - 2048; s_sched := [] |} with (src d (len d - 2048)).
  destruct (eocdr_loop 64 (len d) (len d - 2048) (src d (len d - 2048))) as [r s'] eqn:E. cbn [fst]. intros ->.
  eapply eocdr_loop_low; [|exact E]. lia.
Qed.
