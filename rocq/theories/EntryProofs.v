(** Proofs behind the properties of entry readers. *)
From Verif Require Import Base BaseFacts SpecCrc SpecArchive SpecRead Crc32 CrcFacts Utf8 Headers HeadersFacts Entry IO IOFacts Reader ReaderFacts
  TameFacts LfhFacts EntryReader EntryReaderFacts.
Arguments N.add : simpl never.
Arguments N.sub : simpl never.
Arguments N.min : simpl never.
Arguments N.mul : simpl never.

(** ** agreement *)
Lemma nth_error_drop {A} n (l : list A) i : nth_error (drop n l) i = nth_error l (N.to_nat n + i).
Proof.
  rewrite drop_skipn. generalize (N.to_nat n) as k. intro k. revert l. induction k as [|k IH]; intro l; [reflexivity|].
  destruct l as [|x l]; cbn [skipn nth_error Nat.add]; [now destruct i|apply IH].
Qed.
Lemma take_ext {A} n : forall (x y : list A), (forall i, (i < n)%nat -> nth_error x i = nth_error y i) -> firstn n x = firstn n y.
Proof.
  induction n as [|n IH]; intros x y H; [reflexivity|].
  destruct x as [|a x], y as [|b y]; [reflexivity| | |].
  - specialize (H O ltac:(lia)). discriminate.
  - specialize (H O ltac:(lia)). discriminate.
  - pose proof (H O ltac:(lia)) as E. cbn in E. injection E as ->. cbn [firstn]. f_equal. apply IH.
    intros i Hi. exact (H (S i) ltac:(lia)).
Qed.
Lemma agree_take d1 d2 a n : agree_on d1 d2 a n -> take n (drop a d1) = take n (drop a d2).
Proof.
  intro H. rewrite !take_firstn. apply take_ext. intros i Hi. rewrite !nth_error_drop.
  specialize (H (a + N.of_nat i) ltac:(lia) ltac:(lia)).
  now replace (N.to_nat (a + N.of_nat i)) with (N.to_nat a + i)%nat in H by lia.
Qed.

(** ** the data offset in closed form *)
Definition data_offset (off : N) (h : bytes) : res N :=
  if len h <? 4 then Err (UpstreamReadError UnexpectedEof)
  else if negb (from_le (take 4 h) =? LFH_SIGNATURE) then Err (UnexpectedHeaderError (from_le (take 4 h)) LFH_SIGNATURE)
  else if len h <? 30 then Err (UpstreamReadError UnexpectedEof)
  else
    let p := off + 30 + l_file_name_length (lfh_from (drop 4 h)) + l_extra_field_length (lfh_from (drop 4 h)) in
    if p <=? u64_max then Ok p else Err (UpstreamReadError InvalidInput).

Definition as_unit {A} (r : res A) : res unit := match r with Ok _ => Ok tt | Err e => Err e | Panic p => Panic p end.

Lemma seek_closed e d p0 : exists p',
  seek_to_data_offset e (src d p0) = (as_unit (data_offset (st_file_offset e) (take 30 (drop (st_file_offset e) d))), src d p') /\
  (forall q, data_offset (st_file_offset e) (take 30 (drop (st_file_offset e) d)) = Ok q -> p' = q).
Proof.
  set (off := st_file_offset e). unfold seek_to_data_offset. rewrite (bind_ok _ _ _ _ _ (seek_start_src _ d p0)). fold off.
  unfold bind at 1. rewrite read_exact_calm. unfold exact_result, avail. cbn [s_data s_pos src].
  set (x := drop off d). unfold data_offset. rewrite len_take.
  destruct (4 <=? len x) eqn:E4.
  2:{ replace (N.min 30 (len x) <? 4) with true by lia. eexists. split; [reflexivity|discriminate]. }
  replace (N.min 30 (len x) <? 4) with false by lia. rewrite take_take. change (N.min 4 30) with 4. cbv zeta.
  destruct (from_le (take 4 x) =? LFH_SIGNATURE) eqn:Es; cbn [negb]; [|eexists; split; [reflexivity|discriminate]].
  unfold bind at 1. unfold lfh_from_reader at 1. unfold bind at 1. rewrite read_exact_calm. unfold exact_result, avail. cbn [s_data s_pos src].
  replace (off + N.min 4 (len x)) with (off + 4) by lia.
  rewrite <- drop_drop. fold x. rewrite len_drop.
  destruct (26 <=? len x - 4) eqn:E26.
  2:{ replace (N.min 30 (len x) <? 30) with true by lia. eexists. split; [reflexivity|discriminate]. }
  replace (N.min 30 (len x) <? 30) with false by lia.
  rewrite drop_take. change (30 - 4) with 26. set (h := lfh_from (take 26 (drop 4 x))).
  cbn [ret]. unfold ret at 1. unfold bind, seek_current. cbn [s_pos src].
  replace (off + 4 + N.min 26 (len x - 4) + (l_file_name_length h + l_extra_field_length h))
    with (off + 30 + l_file_name_length h + l_extra_field_length h) by lia.
  destruct (_ <=? u64_max) eqn:Eu.
  - eexists. split; [reflexivity|]. intros q H. injection H as <-. reflexivity.
  - eexists. split; [reflexivity|discriminate].
Qed.

(** the lengths in the header are the numbers at 26 and 28 *)
Lemma nth_sub2 (h : bytes) a : (a + 2 <= length h)%nat ->
  from_le (sub a (a + 2) h) = b2n (nth a h x00) + 256 * b2n (nth (S a) h x00).
Proof.
  intro H. unfold sub. replace (a + 2 - a)%nat with 2%nat by lia. revert h H.
  induction a as [|a IH]; intros h H; destruct h as [|x h]; cbn in H; try lia.
  - destruct h as [|y h]; cbn in H; [lia|]. cbn [skipn firstn nth]. change (from_le [x; y]) with (b2n x + 256 * (b2n y + 256 * 0)). lia.
  - cbn [skipn]. rewrite IH by lia. reflexivity.
Qed.
Lemma nth_drop {A} n (l : list A) i (z : A) : nth i (drop n l) z = nth (N.to_nat n + i) l z.
Proof.
  pose proof (nth_error_drop n l i) as H.
  destruct (nth_error (drop n l) i) as [a|] eqn:E.
  - rewrite (nth_error_nth _ _ z E). symmetry. apply nth_error_nth. congruence.
  - rewrite !nth_overflow; [reflexivity| |]; apply nth_error_None; congruence.
Qed.
Lemma nth_take {A} n (l : list A) i (z : A) : (i < N.to_nat n)%nat -> nth i (take n l) z = nth i l z.
Proof.
  rewrite take_firstn. generalize (N.to_nat n) as k. intros k H. revert k H l.
  induction i as [|i IH]; intros [|k] H l; try lia; destruct l as [|x l]; try reflexivity. cbn [firstn nth]. apply IH. lia.
Qed.
Lemma header_lengths d off : off + 30 <= len d ->
  let h := lfh_from (drop 4 (take 30 (drop off d))) in
  off + 30 + l_file_name_length h + l_extra_field_length h = data_start d off.
Proof.
  intros L h. unfold h, data_start, u16_at.
  assert (Hl : length (drop 4 (take 30 (drop off d))) = 26%nat).
  { apply Nat2N.inj. change (N.of_nat (length (drop 4 (take 30 (drop off d))))) with (len (drop 4 (take 30 (drop off d)))).
    rewrite len_drop, len_take, len_drop. lia. }
  cbn [lfh_from l_file_name_length l_extra_field_length].
  rewrite (nth_sub2 _ 22), (nth_sub2 _ 24) by lia.
  rewrite !nth_drop. rewrite !nth_take by lia. rewrite !nth_drop.
  replace (N.to_nat off + (N.to_nat 4 + 22))%nat with (N.to_nat (off + 26)) by lia.
  replace (N.to_nat off + (N.to_nat 4 + 23))%nat with (N.to_nat (off + 26 + 1)) by lia.
  replace (N.to_nat off + (N.to_nat 4 + 24))%nat with (N.to_nat (off + 28)) by lia.
  replace (N.to_nat off + (N.to_nat 4 + 25))%nat with (N.to_nat (off + 28 + 1)) by lia.
  reflexivity.
Qed.
Lemma data_offset_spec d off q : data_offset off (take 30 (drop off d)) = Ok q -> q = data_start d off.
Proof.
  unfold data_offset. intro H. destruct (_ <? 4); [discriminate|]. destruct (negb _); [discriminate|].
  destruct (len (take 30 (drop off d)) <? 30) eqn:L; [discriminate|]. destruct (_ <=? _); [|discriminate].
  okinv H. subst q. rewrite len_take, len_drop in L. apply header_lengths. lia.
Qed.

(** ** fresh readers *)
Lemma content_new cd s c n : content cd (er_new s c n) = decoded cd c (take n (drop (s_pos s) (s_data s))).
Proof.
  unfold content, decoded, er_new, er_window. cbn [er_comp er_fin er_src er_limit er_out].
  destruct c; try reflexivity; destruct (dec cd _ _); now rewrite drop_0.
Qed.

(** ** checked reads *)
Lemma er_read_to_end_checked_spec cd e r :
  fst (er_read_to_end_checked cd e r) =
  match er_read_to_end cd r with
  | (Ok b, r') => if hasher_finalize (hasher_update (er_hash r) b) =? en_crc32 e then Ok b else Err CRC32CheckError
  | (Err x, _) => Err x
  | (Panic p, _) => Panic p
  end.
Proof.
  unfold er_read_to_end_checked, bind at 1. pose proof (er_read_to_end_spec cd r) as H.
  destruct (er_read_to_end cd r) as [[b|x|p] r']; [|reflexivity|reflexivity].
  destruct H as (u & _ & _ & S & _). unfold er_compute_hash, bind. rewrite (st_hash _ _ _ _ S).
  now destruct (_ =? _).
Qed.

(** reading with a zero-sized buffer changes nothing *)
Lemma poll0_spec cd r : let '(p, r') := er_poll_read cd 0 r in steps cd r r' [] /\
  match p with
  | RPend => s_sched (er_src r) = RPending :: s_sched (er_src r')
  | RGot b => b = [] /\ exists u, s_sched (er_src r) = u ++ s_sched (er_src r') /\ nofail u
  | RErr e => exists c, e = IoOther c /\ s_sched (er_src r) = RFail c :: s_sched (er_src r')
  end.
Proof.
  assert (Hr : set_hash r (hasher_update (er_hash r) []) = r) by (now destruct r).
  unfold er_poll_read, inner_poll_read. change (0 =? 0) with true. cbn [orb].
  destruct (er_comp r) eqn:Ec; try (rewrite Hr; split; [apply steps_refl|split; [reflexivity|exists []; split; [reflexivity|constructor]]]).
  destruct (er_limit r =? 0).
  { rewrite Hr; split; [apply steps_refl|split; [reflexivity|exists []; split; [reflexivity|constructor]]]. }
  replace (N.min 0 (er_limit r)) with 0 by lia.
  unfold poll_read. destruct (s_sched (er_src r)) as [|[|k|c] q] eqn:Es.
  - rewrite take_0. split; [|split; [reflexivity|exists []; split; [reflexivity|constructor]]].
    destruct r as [[d p sc] l c o f h]; cbn in *; subst. rewrite !N.add_0_r, N.sub_0_r. apply steps_refl.
  - pose proof (same_steps cd r q _ Es) as T. destruct r as [[d p sc] l c o f h]; cbn in *; subst.
    rewrite !N.add_0_r, N.sub_0_r. split; [exact T|reflexivity].
  - replace (N.min 0 (k + 1)) with 0 by lia. rewrite take_0.
    split; [|split; [reflexivity|exists [RChunk k]; split; [reflexivity|now apply nofail1]]].
    pose proof (same_steps cd r q _ Es) as T. destruct r as [[d p sc] l c o f h]; cbn in *; subst.
    rewrite !N.add_0_r, N.sub_0_r. exact T.
  - pose proof (same_steps cd r q _ Es) as T. destruct r as [[d p sc] l c0 o f h]; cbn in *; subst.
    rewrite !N.add_0_r, N.sub_0_r. split; [exact T|]. exists c. auto.
Qed.
Lemma er_read0_poll cd : forall f r, (length (s_sched (er_src r)) < f)%nat ->
  let '(x, r') := er_read_poll cd f 0 r in
  match x with Ok b => b = [] | Err (UpstreamReadError (IoOther _)) => True | _ => False end /\ steps cd r r' [].
Proof.
  induction f as [|f IH]; intros r Hf; [lia|]. cbn [er_read_poll].
  pose proof (poll0_spec cd r) as P. destruct (er_poll_read cd 0 r) as [[|b|e] r1]; destruct P as (S & P).
  - rewrite P in Hf. cbn [length] in Hf. specialize (IH r1 ltac:(lia)). destruct (er_read_poll cd f 0 r1) as [x r2].
    destruct IH as [H1 S2]. split; [exact H1|]. exact (steps_trans _ _ _ _ _ _ S S2).
  - destruct P as [-> _]. auto.
  - destruct P as (c & -> & _). auto.
Qed.

(** any read: the bytes delivered are the next ones of the content *)
Definition got (x : res bytes) : bytes := match x with Ok b => b | _ => [] end.
Lemma er_read_steps cd n r : let '(x, r') := er_read cd n r in steps cd r r' (got x).
Proof.
  destruct (N.eq_dec n 0) as [->|Hn].
  - pose proof (er_read0_poll cd (S (length (s_sched (er_src r)))) r ltac:(lia)) as P. unfold er_read.
    destruct (er_read_poll cd _ 0 r) as [x r']. destruct P as [P S]. destruct x as [b|[]|]; try easy. now subst b.
  - pose proof (er_read_spec cd n r ltac:(lia)) as P. destruct (er_read cd n r) as [x r']. destruct P as (u & Hu & P).
    destruct x as [b|[]|]; try easy.
Qed.
Lemma er_reads_steps cd l : forall r, let '(xs, r') := er_reads cd l r in steps cd r r' (delivered xs).
Proof.
  induction l as [|n l IH]; intro r; [apply steps_refl|]. cbn [er_reads].
  pose proof (er_read_steps cd n r) as S1. destruct (er_read cd n r) as [x r1]. specialize (IH r1).
  destruct (er_reads cd l r1) as [xs r2]. exact (steps_trans _ _ _ _ _ _ S1 IH).
Qed.

(** C28 *)
Lemma checked_iff cd s c n l e : let '(xs, r) := er_reads cd l (er_new s c n) in
  (forall b, fst (er_read_to_end_checked cd e r) = Ok b <->
     fst (er_read_to_end cd r) = Ok b /\ crc32_spec (delivered xs ++ b) = en_crc32 e) /\
  (fst (er_read_to_end_checked cd e r) = Err CRC32CheckError <->
     exists b, fst (er_read_to_end cd r) = Ok b /\ crc32_spec (delivered xs ++ b) <> en_crc32 e) /\
  (forall x, x <> CRC32CheckError -> fst (er_read_to_end_checked cd e r) = Err x <-> fst (er_read_to_end cd r) = Err x) /\
  (forall p, fst (er_read_to_end_checked cd e r) <> Panic p) /\
  (forall b, fst (er_read_to_end cd r) = Ok b -> decoded cd c (take n (drop (s_pos s) (s_data s))) = (delivered xs ++ b, true)).
Proof.
  pose proof (er_reads_steps cd l (er_new s c n)) as S. destruct (er_reads cd l (er_new s c n)) as [xs r].
  rewrite er_read_to_end_checked_spec. pose proof (er_read_to_end_spec cd r) as H.
  pose proof (st_hash _ _ _ _ S) as Hh. cbn [er_hash er_new] in Hh.
  destruct (er_read_to_end cd r) as [x r']. cbn [fst].
  destruct x as [b|x|p].
  - assert (Hc : hasher_finalize (hasher_update (er_hash r) b) = crc32_spec (delivered xs ++ b)).
    { rewrite Hh, <- hasher_update_app. apply (crc32_is_spec (delivered xs ++ b)). }
    rewrite Hc. destruct (crc32_spec (delivered xs ++ b) =? en_crc32 e) eqn:E.
    + apply N.eqb_eq in E. split; [|split; [|split; [|split]]].
      * intro b0. split; [intro H0; okinv H0; subst b0; auto|]. intros [H0 _]. exact H0.
      * split; [discriminate|]. intros (b0 & H1 & H2). okinv H1. subst b0. contradiction.
      * intros x _. split; discriminate.
      * discriminate.
      * intros b0 H0. okinv H0. subst b0. destruct H as (u & _ & C & _).
        rewrite <- content_new. rewrite (steps_content _ _ _ _ S), C. reflexivity.
    + apply N.eqb_neq in E. split; [|split; [|split; [|split]]].
      * intro b0. split; [discriminate|]. intros [H1 H2]. okinv H1. subst b0. contradiction.
      * split; [intros _; eauto|reflexivity].
      * intros x Hx. split; [intro H0; injection H0 as <-; contradiction|discriminate].
      * discriminate.
      * intros b0 H0. okinv H0. subst b0. destruct H as (u & _ & C & _).
        rewrite <- content_new. rewrite (steps_content _ _ _ _ S), C. reflexivity.
  - split; [|split; [|split; [|split]]].
    + intro b. split; [discriminate|]. intros [H0 _]. discriminate.
    + split; [|intros (b & H0 & _); discriminate]. intro H0. injection H0 as ->. destruct H as (u & _ & []).
    + intros y _. easy.
    + discriminate.
    + discriminate.
  - destruct H as (u & _ & []).
Qed.

(** ** opening an entry and reading it *)
Lemma agrees_any {A} (m : SM source A) s : insens m -> nofail (s_sched s) ->
  exists q, m s = (fst (m (calm s)), {| s_data := s_data s; s_pos := s_pos (snd (m (calm s))); s_sched := q |}) /\
    (exists u, s_sched s = u ++ q) /\ nofail q.
Proof.
  intros I N. specialize (I s). unfold agrees in I. destruct (m s) as [r s'], (m (calm s)) as [r0 s0].
  destruct I as (_ & D & _ & u & Hu & [(_ & -> & C)|(pre & c & -> & _ & _)]).
  - exists (s_sched s'). rewrite Hu in N. apply nofail_app in N as [_ N]. split; [|split; [eauto|easy]].
    cbn [fst snd]. f_equal. subst s0. destruct s' as [d' p' q']. cbn in *. now subst d'.
  - exfalso. rewrite Hu, <- app_assoc in N. apply nofail_app in N as [_ N]. inversion N; subst. discriminate.
Qed.

Definition read_result (cd : codec) (e : stored_entry) (d : bytes) : res bytes :=
  let? q := data_offset (st_file_offset e) (take 30 (drop (st_file_offset e) d)) in
  let '(b, ok) := decoded cd (en_compression (st_entry e)) (take (en_compressed_size (st_entry e)) (drop q d)) in
  if ok then if crc32_spec b =? en_crc32 (st_entry e) then Ok b else Err CRC32CheckError
  else Err (UpstreamReadError InvalidData).

Lemma checked_new cd e s c n : nofail (s_sched s) ->
  fst (er_read_to_end_checked cd e (er_new s c n)) =
  let '(b, ok) := decoded cd c (take n (drop (s_pos s) (s_data s))) in
  if ok then if crc32_spec b =? en_crc32 e then Ok b else Err CRC32CheckError else Err (UpstreamReadError InvalidData).
Proof.
  intro N. rewrite er_read_to_end_checked_spec. rewrite <- content_new.
  pose proof (er_read_to_end_nofail cd (er_new s c n) N) as H. destruct (er_read_to_end cd (er_new s c n)) as [x r]. cbn [fst] in H.
  subst x. destruct (content cd (er_new s c n)) as [b ok]. cbn [fst snd]. destruct ok; [|reflexivity].
  change (hasher_finalize (hasher_update (er_hash (er_new s c n)) b)) with (crc32 b). now rewrite crc32_is_spec.
Qed.

Lemma seek_any e s : nofail (s_sched s) -> exists p q,
  seek_to_data_offset e s = (as_unit (data_offset (st_file_offset e) (take 30 (drop (st_file_offset e) (s_data s)))),
    {| s_data := s_data s; s_pos := p; s_sched := q |}) /\
  (forall x, data_offset (st_file_offset e) (take 30 (drop (st_file_offset e) (s_data s))) = Ok x -> p = x) /\ nofail q.
Proof.
  intro N. destruct (agrees_any (seek_to_data_offset e) s ltac:(auto with insens) N) as (q & E & _ & Nq).
  destruct (seek_closed e (s_data s) (s_pos s)) as (p & Ec & Hp). exists p, q. rewrite E.
  change (calm s) with (src (s_data s) (s_pos s)). rewrite Ec. cbn [fst snd s_pos src]. auto.
Qed.

Lemma read_entry_closed cd f i s : nofail (s_sched s) ->
  read_entry cd f i s = match entry_at f i with None => Err EntryIndexOutOfBounds | Some e => read_result cd e (s_data s) end.
Proof.
  intro N. unfold read_entry, seek_reader_at. destruct (entry_at f i) as [e|]; [|reflexivity].
  destruct (seek_any e s N) as (p & q & E & Hp & Nq). unfold bind, get, ret. rewrite E. unfold read_result.
  destruct (data_offset _ _) as [x|x|pn]; cbn [as_unit rbind]; [|reflexivity|reflexivity].
  specialize (Hp x eq_refl). subst p. rewrite checked_new by easy. reflexivity.
Qed.
Lemma mem_read_entry_closed cd m i :
  mem_read_entry cd m i =
  match entry_at (m_file m) i with None => Err EntryIndexOutOfBounds | Some e => read_result cd e (m_data m) end.
Proof.
  unfold mem_read_entry, mem_reader_at. destruct (entry_at (m_file m) i) as [e|]; [|reflexivity].
  destruct (seek_any e (cursor (m_data m)) (Forall_nil _)) as (p & q & E & Hp & Nq). rewrite E. unfold read_result. cbn [cursor s_data] in *.
  destruct (data_offset _ _) as [x|x|pn]; cbn [as_unit rbind]; [|reflexivity|reflexivity].
  specialize (Hp x eq_refl). subst p. cbn [fst snd]. now rewrite checked_new.
Qed.

(** C27 *)
Lemma read_result_region cd e d1 d2 :
  agree_on d1 d2 (st_file_offset e) 30 ->
  agree_on d1 d2 (data_start d1 (st_file_offset e)) (en_compressed_size (st_entry e)) ->
  read_result cd e d1 = read_result cd e d2.
Proof.
  intros H1 H2. unfold read_result. rewrite <- (agree_take _ _ _ _ H1).
  destruct (data_offset _ _) as [q|x|p] eqn:E; cbn [rbind]; [|reflexivity|reflexivity].
  apply data_offset_spec in E. subst q. now rewrite (agree_take _ _ _ _ H2).
Qed.
Lemma end_within cd s c n : dec_within cd -> er_end cd (er_new s c n) <= s_pos s + n.
Proof.
  intro D. unfold er_end, er_new, er_window. cbn [er_comp er_src er_limit er_fin]. set (w := take n _).
  assert (len w <= n) by (unfold w; rewrite len_take; lia).
  destruct c; [lia|..]; destruct (dec cd _ w) as [out [k|]] eqn:E; cbn [snd]; try lia; apply D in E; lia.
Qed.

(** C29 *)
Lemma corrupt_detected cd e pre post a m m' z :
  en_compression (st_entry e) = Stored -> len (a ++ m ++ z) = en_compressed_size (st_entry e) ->
  data_start (pre ++ (a ++ m ++ z) ++ post) (st_file_offset e) = len pre -> st_file_offset e + 30 <= len pre ->
  read_result cd e (pre ++ (a ++ m ++ z) ++ post) = Ok (a ++ m ++ z) ->
  length m = length m' -> (length m <= 4)%nat -> m <> m' ->
  read_result cd e (pre ++ (a ++ m' ++ z) ++ post) = Err CRC32CheckError.
Proof.
  intros Hc Hl Hd Ho H L L4 Hne. unfold read_result in *. rewrite Hc in *.
  assert (T : forall r, take 30 (drop (st_file_offset e) (pre ++ r)) = take 30 (drop (st_file_offset e) pre)).
  { intro r. rewrite drop_app_le by lia. rewrite take_app_le; [reflexivity|]. rewrite len_drop. lia. }
  pose proof (data_offset_spec (pre ++ (a ++ m ++ z) ++ post) (st_file_offset e)) as S.
  rewrite T in *. destruct (data_offset _ _) as [q|x|p]; cbn [rbind] in *; try discriminate.
  specialize (S q eq_refl). rewrite Hd in S. subst q. rewrite !drop_app_exact in * by reflexivity.
  assert (Hl' : len (a ++ m' ++ z) = en_compressed_size (st_entry e)).
  { rewrite <- Hl, !len_app. unfold len. rewrite L. reflexivity. }
  rewrite take_app_exact in * by assumption. cbn [decoded] in *.
  destruct (crc32_spec (a ++ m ++ z) =? en_crc32 (st_entry e)) eqn:E; [|discriminate]. apply N.eqb_eq in E.
  pose proof (crc_burst a m m' z L L4 Hne) as B. rewrite !crc32_is_spec, E in B.
  destruct (crc32_spec (a ++ m' ++ z) =? en_crc32 (st_entry e)) eqn:E'; [|reflexivity]. apply N.eqb_eq in E'. congruence.
Qed.

(** C31 *)
Lemma seek_use_keeps cd f i l s : s_data (seek_use cd f i l s) = s_data s /\ exists u, s_sched s = u ++ s_sched (seek_use cd f i l s).
Proof.
  unfold seek_use, seek_reader_at. destruct (entry_at f i) as [e|]; [|split; [reflexivity|now exists []]].
  unfold bind, get, ret. assert (I : insens (seek_to_data_offset e)) by auto with insens. specialize (I s). unfold agrees in I.
  destruct (seek_to_data_offset e s) as [x s1]. destruct (seek_to_data_offset e (calm s)) as [x0 s0].
  destruct I as (_ & _ & D & u & Hu & _). destruct x as [[]|x|p]; [|split; [easy|eauto]|split; [easy|eauto]].
  pose proof (er_reads_steps cd l (er_new s1 (en_compression (st_entry e)) (en_compressed_size (st_entry e)))) as S.
  destruct (er_reads cd l _) as [xs r]. destruct S as [_ _ S1 (v & S2) _ _]. cbn [snd er_src er_new] in *.
  split; [congruence|]. exists (u ++ v). rewrite Hu, S2. now rewrite app_assoc.
Qed.
Lemma seek_uses_keeps cd f h : forall s, s_data (seek_uses cd f h s) = s_data s /\ exists u, s_sched s = u ++ s_sched (seek_uses cd f h s).
Proof.
  induction h as [|[i l] h IH]; intro s; cbn [seek_uses]; [split; [reflexivity|now exists []]|].
  destruct (IH (seek_use cd f i l s)) as (D & u & Hu). destruct (seek_use_keeps cd f i l s) as (D1 & u1 & Hu1).
  split; [congruence|]. exists (u1 ++ u). rewrite <- app_assoc, <- Hu. exact Hu1.
Qed.
Lemma read_after_uses cd f h i s p : nofail (s_sched s) ->
  read_entry cd f i (set_pos (seek_uses cd f h s) p) = read_entry cd f i s.
Proof.
  intro N. destruct (seek_uses_keeps cd f h s) as (D & u & Hu). rewrite !read_entry_closed; [|easy|].
  - cbn [set_pos s_data]. now rewrite D.
  - cbn [set_pos s_sched]. rewrite Hu in N. now apply nofail_app in N.
Qed.

(** C32 *)
Lemma entry_at_none f i : entry_at f i = None <-> len (f_entries f) <= i.
Proof. unfold entry_at, len. rewrite nth_error_None. lia. Qed.
Lemma data_offset_error off h : data_offset off h <> Err EntryIndexOutOfBounds.
Proof.
  unfold data_offset. destruct (_ <? 4); [discriminate|]. destruct (negb _); [discriminate|].
  destruct (_ <? 30); [discriminate|]. now destruct (_ <=? _).
Qed.
Lemma seek_reader_bounds f i s :
  (len (f_entries f) <= i -> seek_reader_at f i s = (Err EntryIndexOutOfBounds, s)) /\
  (i < len (f_entries f) -> fst (seek_reader_at f i s) <> Err EntryIndexOutOfBounds).
Proof.
  split; intro H.
  - apply entry_at_none in H. unfold seek_reader_at. now rewrite H.
  - unfold seek_reader_at. destruct (entry_at f i) as [e|] eqn:E; [|apply entry_at_none in E; lia].
    unfold bind, get, ret. assert (I : insens (seek_to_data_offset e)) by auto with insens. specialize (I s). unfold agrees in I.
    destruct (seek_closed e (s_data s) (s_pos s)) as (p & Ec & _). change (src (s_data s) (s_pos s)) with (calm s) in Ec. rewrite Ec in I.
    destruct (seek_to_data_offset e s) as [x s1]. destruct I as (_ & D & _ & u & Hu & [(_ & -> & _)|(pre & c & _ & _ & ->)]); [|discriminate].
    pose proof (data_offset_error (st_file_offset e) (take 30 (drop (st_file_offset e) (s_data s)))) as H0.
    destruct (data_offset _ _); cbn [as_unit fst]; congruence.
Qed.
Lemma mem_reader_bounds m i :
  (len (f_entries (m_file m)) <= i -> mem_reader_at m i = Err EntryIndexOutOfBounds) /\
  (i < len (f_entries (m_file m)) -> mem_reader_at m i <> Err EntryIndexOutOfBounds).
Proof.
  split; intro H.
  - apply entry_at_none in H. unfold mem_reader_at. now rewrite H.
  - unfold mem_reader_at. destruct (entry_at (m_file m) i) as [e|] eqn:E; [|apply entry_at_none in E; lia].
    destruct (seek_any e (cursor (m_data m)) (Forall_nil _)) as (p & q & Ee & _). rewrite Ee.
    pose proof (data_offset_error (st_file_offset e) (take 30 (drop (st_file_offset e) (s_data (cursor (m_data m)))))) as H0.
    destruct (data_offset _ _); cbn [as_unit]; congruence.
Qed.

(** C30 *)
Definition own (k : nat) (ops : list (nat * N)) : list N := map snd (filter (fun o => Nat.eqb (fst o) k) ops).
Definition own_results (k : nat) (xs : list (nat * res bytes)) : list (res bytes) := map snd (filter (fun o => Nat.eqb (fst o) k) xs).
Lemma nth_update_same {A} (l : list A) : forall k a, (k < length l)%nat -> nth_error (update_at k a l) k = Some a.
Proof. induction l as [|x l IH]; intros [|k] a H; cbn in *; try lia; [reflexivity|]. apply IH. lia. Qed.
Lemma nth_update_other {A} (l : list A) : forall k j a, k <> j -> nth_error (update_at k a l) j = nth_error l j.
Proof. induction l as [|x l IH]; intros [|k] [|j] a H; cbn; try easy. apply IH. lia. Qed.
Lemma interleave_own cd ops : forall rs k r, nth_error rs k = Some r ->
  let '(xs, rs') := interleave cd ops rs in
  er_reads cd (own k ops) r = (own_results k xs, match nth_error rs' k with Some r' => r' | None => r end) /\
  exists r', nth_error rs' k = Some r'.
Proof.
  induction ops as [|[j n] ops IH]; intros rs k r H; cbn [interleave].
  { cbn. rewrite H. split; [reflexivity|eauto]. }
  destruct (Nat.eq_dec j k) as [->|Hne].
  - rewrite H. unfold own. cbn [filter fst]. rewrite Nat.eqb_refl. cbn [map snd er_reads].
    destruct (er_read cd n r) as [x r1] eqn:E.
    assert (Hk : (k < length rs)%nat) by (apply nth_error_Some; congruence).
    specialize (IH (update_at k r1 rs) k r1 (nth_update_same rs k r1 Hk)).
    destruct (interleave cd ops (update_at k r1 rs)) as [xs rs']. destruct IH as (IH & r' & Hr'). fold (own k ops).
    rewrite IH. unfold own_results. cbn [filter fst]. rewrite Nat.eqb_refl. cbn [map snd]. rewrite Hr'. split; [reflexivity|eauto].
  - unfold own. cbn [filter fst]. apply Nat.eqb_neq in Hne as Hb. rewrite Hb. fold (own k ops).
    destruct (nth_error rs j) as [rj|]; [|apply IH, H].
    destruct (er_read cd n rj) as [x r1].
    specialize (IH (update_at j r1 rs) k r). rewrite (nth_update_other rs j k r1 Hne) in IH. specialize (IH H).
    destruct (interleave cd ops (update_at j r1 rs)) as [xs rs']. unfold own_results. cbn [filter fst]. rewrite Hb. exact IH.
Qed.
Lemma reads_prefix cd l s c n : let '(xs, r) := er_reads cd l (er_new s c n) in
  prefix (delivered xs) (fst (decoded cd c (take n (drop (s_pos s) (s_data s))))) /\
  (forall m, 0 < m -> fst (er_read cd m r) = Ok [] -> decoded cd c (take n (drop (s_pos s) (s_data s))) = (delivered xs, true)).
Proof.
  pose proof (er_reads_steps cd l (er_new s c n)) as S. destruct (er_reads cd l (er_new s c n)) as [xs r].
  pose proof (steps_content _ _ _ _ S) as C. rewrite content_new in C. rewrite C. cbn [fst]. split; [apply prefix_app|].
  intros m Hm H. pose proof (er_read_spec cd m r Hm) as P. destruct (er_read cd m r) as [x r']. cbn [fst] in H. subst x.
  destruct P as (u & _ & _ & P & _). rewrite (P eq_refl). cbn. now rewrite app_nil_r.
Qed.
