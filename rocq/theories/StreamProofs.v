(** Leaving an entry while reading an archive front to back. *)
From Verif Require Import Base BaseFacts SpecFormat SpecCrc SpecRead Headers HeadersFacts Entry IO IOFacts Reader ReaderFacts EntryReader
  EntryReaderFacts EntryProofs StreamReader SpecStream.
Arguments N.add : simpl never.
Arguments N.sub : simpl never.
Arguments N.min : simpl never.
Arguments N.mul : simpl never.

Lemma poll_eof cd n r r' : 0 < n -> er_poll_read cd n r = (RGot [], r') -> s_pos (er_src r') = er_end cd r.
Proof.
  intros Hn. unfold er_poll_read, inner_poll_read.
  destruct (compression_eqb (er_comp r) Stored) eqn:Ec.
  - assert (Hc : er_comp r = Stored) by (now destruct (er_comp r)). rewrite Hc. unfold er_end. rewrite Hc. unfold er_window.
    destruct (er_limit r =? 0) eqn:El.
    { intro H. injection H as <-. cbn [set_hash er_src]. apply N.eqb_eq in El. rewrite El, take_0. change (len (@nil byte)) with 0. lia. }
    unfold poll_read. destruct (s_sched (er_src r)) as [|[|k|c] q] eqn:Es.
    + intro H. injection H as H1 <-. cbn [set_hash er_src with_sched set_pos s_pos]. rewrite H1.
      apply (f_equal len) in H1. rewrite len_take in H1. change (len (@nil byte)) with 0 in *. rewrite len_take. lia.
    + discriminate.
    + intro H. injection H as H1 <-. cbn [set_hash er_src with_sched set_pos s_pos]. rewrite H1.
      apply (f_equal len) in H1. rewrite len_take in H1. change (len (@nil byte)) with 0 in *. rewrite len_take. lia.
    + discriminate.
  - assert (Hc : er_comp r <> Stored) by (intro H; rewrite H in Ec; discriminate).
    replace (n =? 0) with false by lia. cbn [orb].
    assert (EE : er_end cd r = if er_fin r then s_pos (er_src r) else match snd (dec cd (er_comp r) (er_window r)) with Some k => s_pos (er_src r) + k | None => s_pos (er_src r) end)
      by (unfold er_end; now destruct (er_comp r)).
    rewrite EE. destruct (er_fin r) eqn:Ef.
    { destruct (er_comp r); [easy|..]; intro H; injection H as <-; reflexivity. }
    destruct (er_comp r) eqn:Ecomp; [easy|..]; destruct (dec cd _ (er_window r)) as [out fin]; cbn [snd];
    destruct (s_sched (er_src r)) as [|[|k|c] q] eqn:Es; try discriminate; cbv zeta;
    match goal with |- context [len ?x =? 0] => destruct (len x =? 0) eqn:L end;
    try (destruct fin; try discriminate; intro H; injection H as <-; reflexivity);
    intro H; injection H as H _; rewrite H in L; discriminate.
Qed.

Lemma read_poll_eof cd n : 0 < n -> forall f r r', (length (s_sched (er_src r)) < f)%nat ->
  er_read_poll cd f n r = (Ok [], r') -> s_pos (er_src r') = er_end cd r.
Proof.
  intro Hn. induction f as [|f IH]; intros r r' Hf H; [lia|].
  pose proof (er_read_poll_spec cd n Hn (S f) r Hf) as P. rewrite H in P. destruct P as (u & _ & _ & C & _).
  specialize (C eq_refl). cbn [er_read_poll] in H.
  pose proof (poll_spec cd n r Hn) as Q. pose proof (poll_eof cd n r) as E.
  destruct (er_poll_read cd n r) as [[|b|e] r1]; cbn [poll_outcome] in Q.
  - destruct Q as [S Es]. rewrite Es in Hf. cbn [length] in Hf. rewrite (IH r1 r' ltac:(lia) H).
    apply (st_end _ _ _ _ S). now rewrite C.
  - injection H as -> ->. now apply E.
  - discriminate.
Qed.
Lemma read_eof cd n r r' : 0 < n -> er_read cd n r = (Ok [], r') -> s_pos (er_src r') = er_end cd r.
Proof. intros H E. refine (read_poll_eof cd n H _ r r' _ E). lia. Qed.

Lemma nofail_suffix (s q : list revent) : nofail s -> (exists u, s = u ++ q) -> nofail q.
Proof. intros N (u & ->). now apply nofail_app in N as [_ N]. Qed.

(** reading past everything *)
Lemma done_read cd r : nofail (s_sched (er_src r)) ->
  let '(x, r') := er_read cd 1 r in
  match content cd r with
  | ([], true) => x = Ok [] /\ stands (er_src r') (s_data (er_src r)) (er_end cd r)
  | ([], false) => x = Err (UpstreamReadError InvalidData)
  | _ => exists b, x = Ok b /\ b <> []
  end.
Proof.
  intro N. pose proof (er_read_spec cd 1 r ltac:(lia)) as P. pose proof (read_eof cd 1 r) as E.
  destruct (er_read cd 1 r) as [x r']. destruct P as (u & Hu & P).
  destruct x as [b|[]|]; try easy.
  - destruct P as (S & C & _). pose proof (steps_content _ _ _ _ S) as SC. destruct b as [|y b].
    + rewrite (C eq_refl). split; [easy|]. split; [apply (st_data _ _ _ _ S)|]. split; [now apply E|].
      eapply nofail_suffix; [exact N|]. now exists u.
    + rewrite SC. cbn [app]. now exists (y :: b).
  - destruct P as (_ & [(-> & C & _)|(c & pre & _ & H & _)]); [now rewrite C|].
    exfalso. rewrite Hu in N. eapply used_nofail; eauto.
Qed.

Lemma skip_loop_spec cd : forall f r, (length (fst (content cd r)) < f)%nat -> nofail (s_sched (er_src r)) ->
  let '(x, r') := skip_loop cd f r in
  if snd (content cd r) then x = Ok tt /\ stands (er_src r') (s_data (er_src r)) (er_end cd r)
  else x = Err (UpstreamReadError InvalidData).
Proof.
  induction f as [|f IH]; intros r Hf N; [lia|]. cbn [skip_loop]. unfold bind.
  pose proof (er_read_spec cd 2048 r ltac:(lia)) as P. pose proof (read_eof cd 2048 r) as E.
  destruct (er_read cd 2048 r) as [x r1]. destruct P as (u & Hu & P). destruct x as [b|[]|]; try easy.
  - destruct P as (S & H & Hn). pose proof (steps_content _ _ _ _ S) as C. destruct (len b =? 0) eqn:L.
    + apply N.eqb_eq, len_nil0 in L. subst b. rewrite (H eq_refl). split; [reflexivity|]. split; [apply (st_data _ _ _ _ S)|].
      split; [now apply E|]. eapply nofail_suffix; [exact N|]. now exists u.
    + rewrite C in Hf |- *. cbn [fst snd] in *. rewrite app_length in Hf.
      assert (0 < length b)%nat by (apply N.eqb_neq in L; unfold len in L; lia).
      assert (N1 : nofail (s_sched (er_src r1))) by (eapply nofail_suffix; [exact N|now exists u]).
      specialize (IH r1 ltac:(lia) N1). destruct (skip_loop cd f r1) as [y r2].
      pose proof (st_end _ _ _ _ S) as SE. rewrite C in SE. cbn [snd] in SE. rewrite <- (st_data _ _ _ _ S).
      destruct (snd (content cd r1)); [|exact IH]. rewrite <- SE by easy. exact IH.
  - destruct P as (_ & [(-> & C & _)|(c & pre & _ & H & _)]); [now rewrite C|].
    exfalso. rewrite Hu in N. eapply used_nofail; eauto.
Qed.

(** ** the end of an entry *)
Definition after_entry (descriptor : bool) (s : source) : res source :=
  if descriptor then
    match consume_data_descriptor s with (Ok _, s) => Ok s | (Err e, _) => Err e | (Panic p, _) => Panic p end
  else Ok s.

(** ** data descriptors *)
Lemma insens_consume : insens consume_data_descriptor.
Proof. unfold consume_data_descriptor. insens_tac. Qed.

Lemma consume_cases s : nofail (s_sched s) ->
  match consume_data_descriptor s with
  | (Ok _, s') => True
  | (x, _) => x = Err (UpstreamReadError UnexpectedEof)
  end.
Proof.
  intro N. destruct (agrees_any _ s insens_consume N) as (q & -> & _).
  assert (G : match fst (consume_data_descriptor (calm s)) with Ok _ => True | x => x = Err (UpstreamReadError UnexpectedEof) end).
  { change (calm s) with (src (s_data s) (s_pos s)). unfold consume_data_descriptor, bind. rewrite read_exact_calm.
    unfold exact_result. destruct (_ <=? _); [|reflexivity]. destruct (bytes_eqb _ _); [|exact I].
    rewrite read_exact_calm. unfold exact_result. destruct (_ <=? _); [exact I|reflexivity]. }
  destruct (fst _); [exact I|exact G|exact G].
Qed.

Lemma consume_at s d p m : stands s d p -> consume_data_descriptor (src d p) = (Ok tt, src d m) ->
  exists s', after_entry true s = Ok s' /\ stands s' d m.
Proof.
  intros (<- & <- & N) E. unfold after_entry. destruct (agrees_any _ s insens_consume N) as (q & -> & _ & Nq).
  change (calm s) with (src (s_data s) (s_pos s)). rewrite E. cbn [fst snd s_pos src].
  eexists. split; [reflexivity|]. split; [reflexivity|]. split; [reflexivity|exact Nq].
Qed.

Lemma consume_signed d p w y : drop p d = to_le 4 0x08074b50 ++ w ++ y -> len w = 12 ->
  consume_data_descriptor (src d p) = (Ok tt, src d (p + 16)).
Proof.
  intros E L. unfold consume_data_descriptor.
  assert (E1 : drop p d = (to_le 4 0x08074b50 ++ take 8 w) ++ (drop 8 w ++ y)).
  { rewrite E, <- app_assoc. f_equal. now rewrite app_assoc, take_drop. }
  rewrite (bind_ok _ _ _ _ _ (read_exact_here 12 d p _ _ E1 ltac:(rewrite len_app, len_to_le, len_take; lia))).
  rewrite (take_app_exact SIGNATURE_LENGTH (to_le 4 0x08074b50)) by reflexivity. change 0x08074b50 with DATA_DESCRIPTOR_SIGNATURE.
  rewrite bytes_eqb_refl.
  assert (E2 : drop (p + 12) d = drop 8 w ++ y).
  { rewrite <- drop_drop, E1. apply drop_app_exact. rewrite len_app, len_to_le, len_take. lia. }
  rewrite (bind_ok _ _ _ _ _ (read_exact_here 4 d (p + 12) _ _ E2 ltac:(rewrite len_drop; lia))).
  unfold ret. f_equal. f_equal. lia.
Qed.
Lemma consume_unsigned d p w y : drop p d = w ++ y -> len w = 12 -> take 4 w <> to_le 4 0x08074b50 ->
  consume_data_descriptor (src d p) = (Ok tt, src d (p + 12)).
Proof.
  intros E L S. unfold consume_data_descriptor. rewrite (bind_ok _ _ _ _ _ (read_exact_here 12 d p _ _ E L)).
  destruct (bytes_eqb (take SIGNATURE_LENGTH w) _) eqn:B; [|reflexivity]. exfalso. apply S. now apply bytes_eqb_eq in B.
Qed.

Lemma end_new cd s c n k : entry_span cd c (take n (drop (s_pos s) (s_data s))) = Some k ->
  er_end cd (er_new s c n) = s_pos s + k.
Proof.
  unfold entry_span, er_end, er_new, er_window. cbn [er_comp er_src er_limit er_fin]. destruct c; intro H; try now rewrite H.
  now injection H as <-.
Qed.
Lemma span_sound cd c w : snd (decoded cd c w) = true <-> exists k, entry_span cd c w = Some k.
Proof.
  unfold decoded, entry_span. destruct c; [split; [eauto|easy]|..]; destruct (dec cd _ w) as [out [k|]]; cbn [snd];
  (split; [eauto; discriminate|]); intros (? & H); easy.
Qed.

Lemma nil_app_inv {A} (a b : list A) : a = a ++ b -> b = [].
Proof. intro H. apply (f_equal (@length A)) in H. rewrite app_length in H. destruct b; [reflexivity|cbn in H; lia]. Qed.

Lemma done_spec cd s c n l e desc : nofail (s_sched s) ->
  let '(xs, r) := er_reads cd l (er_new s c n) in
  let w := take n (drop (s_pos s) (s_data s)) in
  let x := {| rd_reader := r; rd_entry := e; rd_descriptor := desc |} in
  (stream_done cd x = Err EOFNotReached <-> delivered xs <> fst (decoded cd c w)) /\
  (delivered xs = fst (decoded cd c w) -> snd (decoded cd c w) = false -> stream_done cd x = Err (UpstreamReadError InvalidData)) /\
  (delivered xs = fst (decoded cd c w) -> forall k, entry_span cd c w = Some k ->
     exists s', stands s' (s_data s) (s_pos s + k) /\ stream_done cd x = after_entry desc s').
Proof.
  intro N. pose proof (er_reads_steps cd l (er_new s c n)) as S. destruct (er_reads cd l (er_new s c n)) as [xs r]. cbv zeta.
  pose proof (steps_content _ _ _ _ S) as C. rewrite content_new in C.
  pose proof (st_data _ _ _ _ S) as D. cbn [er_src er_new] in D.
  pose proof (st_end _ _ _ _ S) as SE. rewrite content_new in SE.
  assert (N1 : nofail (s_sched (er_src r))) by (eapply nofail_suffix; [exact N|apply (st_sched _ _ _ _ S)]).
  set (w := take n (drop (s_pos s) (s_data s))) in *.
  pose proof (done_read cd r N1) as P. unfold stream_done. cbn [rd_reader rd_descriptor].
  assert (FC : fst (decoded cd c w) = delivered xs ++ fst (content cd r)) by (rewrite C; reflexivity).
  assert (SC : snd (decoded cd c w) = snd (content cd r)) by (rewrite C; reflexivity).
  destruct (er_read cd 1 r) as [x r']. destruct (content cd r) as [[|y k0] ok] eqn:CR; cbn [fst snd] in *.
  - assert (DX : delivered xs = fst (decoded cd c w)) by (now rewrite FC, app_nil_r).
    destruct ok.
    + destruct P as (-> & P). change (len (@nil byte) =? 0) with true. cbn [negb].
      assert (FE : forall z, finish_entry desc r' = z -> z <> Err EOFNotReached).
      { intros z <-. unfold finish_entry. destruct desc; [|discriminate]. 
        destruct P as (_ & _ & P). pose proof (consume_cases (er_src r') P) as Q.
        destruct (consume_data_descriptor (er_src r')) as [[[]| |] s1]; try discriminate; injection Q as ->; discriminate. }
      split; [split; [intro H; exfalso; now apply (FE _ eq_refl)|intro H; now destruct H]|].
      split; [intros _ H; rewrite SC in H; discriminate|]. intros _ k HK. rewrite D, SE in P by easy.
      rewrite (end_new _ _ _ _ k HK) in P. exists (er_src r'). split; [exact P|]. reflexivity.
    + rewrite P. split; [split; [discriminate|intro H; now destruct H]|]. split; [reflexivity|].
      intros _ k HK. exfalso. assert (snd (decoded cd c w) = true) by (apply span_sound; eauto). congruence.
  - assert (DX : delivered xs <> fst (decoded cd c w)).
    { rewrite FC. intro H. apply nil_app_inv in H. discriminate. }
    destruct P as (b & -> & Hb). replace (len b =? 0) with false by (destruct b; [easy|rewrite len_cons; lia]). cbn [negb].
    split; [easy|]. split; intro; easy.
Qed.

Lemma skip_spec cd s c n l e desc : nofail (s_sched s) ->
  let '(xs, r) := er_reads cd l (er_new s c n) in
  let w := take n (drop (s_pos s) (s_data s)) in
  let x := {| rd_reader := r; rd_entry := e; rd_descriptor := desc |} in
  (snd (decoded cd c w) = false -> stream_skip cd x = Err (UpstreamReadError InvalidData)) /\
  (forall k, entry_span cd c w = Some k ->
     exists s', stands s' (s_data s) (s_pos s + k) /\ stream_skip cd x = after_entry desc s').
Proof.
  intro N. pose proof (er_reads_steps cd l (er_new s c n)) as S. destruct (er_reads cd l (er_new s c n)) as [xs r]. cbv zeta.
  pose proof (steps_content _ _ _ _ S) as C. rewrite content_new in C.
  pose proof (st_data _ _ _ _ S) as D. cbn [er_src er_new] in D.
  pose proof (st_end _ _ _ _ S) as SE. rewrite content_new in SE.
  assert (N1 : nofail (s_sched (er_src r))) by (eapply nofail_suffix; [exact N|apply (st_sched _ _ _ _ S)]).
  set (w := take n (drop (s_pos s) (s_data s))) in *.
  pose proof (skip_loop_spec cd _ r (fuel_enough cd r) N1) as P. unfold stream_skip. cbn [rd_reader rd_descriptor].
  assert (SC : snd (decoded cd c w) = snd (content cd r)) by (rewrite C; reflexivity).
  destruct (skip_loop cd (er_fuel cd r) r) as [x r']. rewrite SC. destruct (snd (content cd r)).
  - split; [discriminate|]. intros k HK. destruct P as (-> & P). rewrite D, SE in P by easy.
    rewrite (end_new _ _ _ _ k HK) in P. exists (er_src r'). split; [exact P|]. reflexivity.
  - split; [now rewrite P|]. intros k HK. exfalso. assert (snd (decoded cd c w) = true) by (apply span_sound; eauto). congruence.
Qed.

(** ** C35, C34 *)
Lemma done_at cd s c n l e : nofail (s_sched s) ->
  let '(xs, r) := er_reads cd l (er_new s c n) in
  let w := take n (drop (s_pos s) (s_data s)) in
  let x desc := {| rd_reader := r; rd_entry := e; rd_descriptor := desc |} in
  (forall desc, stream_done cd (x desc) = Err EOFNotReached <-> delivered xs <> fst (decoded cd c w)) /\
  (delivered xs = fst (decoded cd c w) ->
     (forall k, entry_span cd c w = Some k -> exists s', stream_done cd (x false) = Ok s' /\ stands s' (s_data s) (s_pos s + k)) /\
     (entry_span cd c w = None -> forall desc, stream_done cd (x desc) = Err (UpstreamReadError InvalidData))).
Proof.
  intro N. pose proof (fun desc => done_spec cd s c n l e desc N) as H. destruct (er_reads cd l (er_new s c n)) as [xs r]. cbv zeta in *.
  split; [intro desc; apply (H desc)|]. intro D. split.
  - intros k K. destruct (H false) as (_ & _ & H3). destruct (H3 D k K) as (s' & S & E). exists s'. split; [exact E|exact S].
  - intros K desc. destruct (H desc) as (_ & H2 & _). apply H2; [exact D|]. destruct (snd (decoded cd c _)) eqn:E; [|reflexivity].
    apply span_sound in E as (k & E). congruence.
Qed.

Definition descriptor_taken (signed wide : bool) (crc : N) : N :=
  if signed || (crc =? 0x08074b50) then 16 else 12.
Lemma le_take4 v a : take 4 (le 4 v ++ a) = le 4 v.
Proof. apply take_app_exact. reflexivity. Qed.
Lemma le4_inj u v : u < 0x100000000 -> v < 0x100000000 -> le 4 u = le 4 v -> u = v.
Proof. intros U V E. rewrite !le_to_le in E. apply (f_equal from_le) in E. now rewrite !from_to_le4 in E. Qed.

Lemma descriptor_consumed s d p signed wide crc csize usize y : stands s d p ->
  drop p d = descriptor signed wide crc csize usize ++ y -> crc < 0x100000000 ->
  (signed = false -> wide = false -> crc = 0x08074b50 -> 4 <= len y) ->
  exists s', after_entry true s = Ok s' /\ stands s' d (p + descriptor_taken signed wide crc).
Proof.
  intros S E B Y. apply (consume_at s d p); [exact S|]. unfold descriptor_taken, descriptor in *.
  destruct signed; cbn [orb].
  - rewrite <- app_assoc, le_to_le in E. destruct wide.
    + apply (consume_signed d p (le 4 crc ++ le 8 csize) (le 8 usize ++ y)); [|reflexivity]. rewrite E. now rewrite <- !app_assoc.
    + apply (consume_signed d p (le 4 crc ++ le 4 csize ++ le 4 usize) y); [|reflexivity]. rewrite E. now rewrite <- !app_assoc.
  - rewrite app_nil_l in E. destruct (N.eqb_spec crc 0x08074b50) as [->|C].
    + rewrite le_to_le in E at 1. destruct wide.
      * apply (consume_signed d p (le 8 csize ++ take 4 (le 8 usize)) (drop 4 (le 8 usize) ++ y)); [|reflexivity].
        rewrite E. rewrite <- !app_assoc. reflexivity.
      * specialize (Y eq_refl eq_refl eq_refl). apply (consume_signed d p (le 4 csize ++ le 4 usize ++ take 4 y) (drop 4 y)).
        -- rewrite E. rewrite <- !app_assoc. now rewrite take_drop.
        -- rewrite !len_app, len_take. change (len (le 4 csize)) with 4. change (len (le 4 usize)) with 4. lia.
    + assert (X : forall a, take 4 (le 4 crc ++ a) <> to_le 4 0x08074b50).
      { intros a H. rewrite le_take4, <- le_to_le in H. apply le4_inj in H; [now apply C|exact B|reflexivity]. }
      destruct wide.
      * apply (consume_unsigned d p (le 4 crc ++ le 8 csize) (le 8 usize ++ y)); [|reflexivity|apply X]. rewrite E. now rewrite <- !app_assoc.
      * apply (consume_unsigned d p (le 4 crc ++ le 4 csize ++ le 4 usize) y); [|reflexivity|apply X]. rewrite E. now rewrite <- !app_assoc.
Qed.

(** an entry followed by a data descriptor *)
Lemma descriptor_left cd s c n l e k signed wide crc csize usize y : nofail (s_sched s) ->
  let '(xs, r) := er_reads cd l (er_new s c n) in
  let w := take n (drop (s_pos s) (s_data s)) in
  let x := {| rd_reader := r; rd_entry := e; rd_descriptor := true |} in
  entry_span cd c w = Some k ->
  drop (s_pos s + k) (s_data s) = descriptor signed wide crc csize usize ++ y -> crc < 0x100000000 ->
  (signed = false -> wide = false -> crc = 0x08074b50 -> 4 <= len y) ->
  let q := s_pos s + k + descriptor_taken signed wide crc in
  (exists s', stream_skip cd x = Ok s' /\ stands s' (s_data s) q) /\
  (delivered xs = fst (decoded cd c w) -> exists s', stream_done cd x = Ok s' /\ stands s' (s_data s) q).
Proof.
  intro N. pose proof (done_spec cd s c n l e true N) as H. pose proof (skip_spec cd s c n l e true N) as K.
  destruct (er_reads cd l (er_new s c n)) as [xs r]. cbv zeta in *. intros SP D B Y. split.
  - destruct K as (_ & K). destruct (K k SP) as (s' & S & ->). eapply descriptor_consumed; eassumption.
  - intro DL. destruct H as (_ & _ & H). destruct (H DL k SP) as (s' & S & ->). eapply descriptor_consumed; eassumption.
Qed.
Lemma len_descriptor signed wide crc csize usize : len (descriptor signed wide crc csize usize) =
  (if signed then 4 else 0) + 4 + (if wide then 16 else 8).
Proof. destruct signed, wide; reflexivity. Qed.
Lemma descriptor32_left cd s c n l e k signed crc csize usize y : nofail (s_sched s) ->
  let '(xs, r) := er_reads cd l (er_new s c n) in
  let w := take n (drop (s_pos s) (s_data s)) in
  let x := {| rd_reader := r; rd_entry := e; rd_descriptor := true |} in
  let dd := descriptor signed false crc csize usize in
  entry_span cd c w = Some k -> drop (s_pos s + k) (s_data s) = dd ++ y -> crc < 0x100000000 ->
  (signed = false -> crc <> 0x08074b50) ->
  let q := s_pos s + k + len dd in
  (exists s', stream_skip cd x = Ok s' /\ stands s' (s_data s) q) /\
  (delivered xs = fst (decoded cd c w) -> exists s', stream_done cd x = Ok s' /\ stands s' (s_data s) q).
Proof.
  intro N. pose proof (descriptor_left cd s c n l e k signed false crc csize usize y N) as H.
  destruct (er_reads cd l (er_new s c n)) as [xs r]. cbv zeta in *. intros SP D B Y.
  assert (T : descriptor_taken signed false crc = len (descriptor signed false crc csize usize)).
  { rewrite len_descriptor. unfold descriptor_taken. destruct signed; [reflexivity|]. specialize (Y eq_refl). apply N.eqb_neq in Y. now rewrite Y. }
  rewrite T in H. apply H; try assumption. intros S _ C. now elim (Y S).
Qed.
Lemma descriptor_misled cd s c n l e k signed wide crc csize usize y : nofail (s_sched s) ->
  let '(xs, r) := er_reads cd l (er_new s c n) in
  let w := take n (drop (s_pos s) (s_data s)) in
  let x := {| rd_reader := r; rd_entry := e; rd_descriptor := true |} in
  let dd := descriptor signed wide crc csize usize in
  entry_span cd c w = Some k -> drop (s_pos s + k) (s_data s) = dd ++ y -> crc < 0x100000000 -> 4 <= len y ->
  wide = true \/ signed = false /\ crc = 0x08074b50 ->
  exists s' p, stream_skip cd x = Ok s' /\ stands s' (s_data s) p /\ p <> s_pos s + k + len dd.
Proof.
  intro N. pose proof (descriptor_left cd s c n l e k signed wide crc csize usize y N) as H.
  destruct (er_reads cd l (er_new s c n)) as [xs r]. cbv zeta in *. intros SP D B Y W.
  destruct (H SP D B) as ((s' & S1 & S2) & _); [auto|]. eexists s', _. split; [exact S1|]. split; [exact S2|].
  rewrite len_descriptor. unfold descriptor_taken. destruct W as [->|[-> ->]].
  - destruct signed, (crc =? 0x08074b50); cbn [orb]; lia.
  - destruct wide; cbn; lia.
Qed.
