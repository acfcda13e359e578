(** The reader over a path. *)
From Verif Require Import Base BaseFacts SpecFormat SpecArchive ZString Entry IO IOFacts Reader ReaderFacts LfhFacts EntryReader EntryReaderFacts SpecRead EntryProofs ReadProofs FsReader.

Definition fresh (d : bytes) (q : list revent) : source := {| s_data := d; s_pos := 0; s_sched := q |}.

Lemma fs_read_is cd fs x i : fs_read_entry cd fs x i =
  match entry_at (x_file x) i with
  | None => Err EntryIndexOutOfBounds
  | Some _ => match fs (x_path x) with OpenFails e => Err (UpstreamReadError e) | Opens d q => read_entry cd (x_file x) i (fresh d q) end
  end.
Proof.
  unfold fs_read_entry, fs_reader_at, fs_open, read_entry, seek_reader_at. destruct (entry_at (x_file x) i) as [e|]; [|reflexivity].
  destruct (fs (x_path x)) as [io|d q]; [reflexivity|]. cbn [rbind]. fold (fresh d q). unfold bind, get, ret.
  destruct (seek_to_data_offset e (fresh d q)) as [[u|y|p] s]; reflexivity.
Qed.
Lemma mem_read_is cd m i : mem_read_entry cd m i = read_entry cd (m_file m) i (cursor (m_data m)).
Proof.
  unfold mem_read_entry, mem_reader_at, read_entry, seek_reader_at. destruct (entry_at (m_file m) i) as [e|]; [|reflexivity].
  unfold bind, get, ret. destruct (seek_to_data_offset e (cursor (m_data m))) as [[u|y|p] s]; reflexivity.
Qed.

(** opening *)
Lemma fs_new_is cfg fs p : fs_new cfg fs p =
  match fs p with
  | OpenFails e => Err (UpstreamReadError e)
  | Opens d q => match fst (file cfg (fresh d q)) with Ok f => Ok {| x_path := p; x_file := f |} | Err x => Err x | Panic y => Panic y end
  end.
Proof. unfold fs_new, fs_open. destruct (fs p) as [io|d q]; [reflexivity|]. cbn [rbind]. fold (fresh d q). now destruct (fst (file cfg (fresh d q))). Qed.

Lemma fs_new_mem cfg fs p d q : fs p = Opens d q ->
  (forall c, In (RFail c) q -> fs_new cfg fs p <> Err (UpstreamReadError (IoOther c))) ->
  match mem_new cfg d with
  | Ok m => fs_new cfg fs p = Ok {| x_path := p; x_file := m_file m |}
  | Err x => fs_new cfg fs p = Err x
  | Panic y => fs_new cfg fs p = Panic y
  end.
Proof.
  intros O H. rewrite fs_new_is, O in *. unfold mem_new. destruct (file_faults cfg (fresh d q)) as [E|(c & I & E)].
  - rewrite E. cbn [s_data fresh]. destruct (fst (file cfg (cursor d))); reflexivity.
  - elim (H c I). now rewrite E.
Qed.
Lemma fs_read_mem cd fs x i d q : fs (x_path x) = Opens d q ->
  fs_read_entry cd fs x i = mem_read_entry cd {| m_data := d; m_file := x_file x |} i \/
  exists c, In (RFail c) q /\ fs_read_entry cd fs x i = Err (UpstreamReadError (IoOther c)).
Proof.
  intro O. rewrite fs_read_is, mem_read_is, O. cbn [m_file m_data]. destruct (entry_at (x_file x) i) as [e|] eqn:E.
  - exact (read_entry_faults cd (x_file x) i (fresh d q)).
  - left. unfold read_entry, seek_reader_at. now rewrite E.
Qed.
Lemma fs_read_calm cd fs x i d q : fs (x_path x) = Opens d q -> nofail q ->
  fs_read_entry cd fs x i = mem_read_entry cd {| m_data := d; m_file := x_file x |} i.
Proof.
  intros O N. destruct (fs_read_mem cd fs x i d q O) as [E|(c & I & _)]; [exact E|].
  unfold nofail in N. rewrite Forall_forall in N. now specialize (N _ I).
Qed.
Lemma checked_not_bounds cd e r : fst (er_read_to_end_checked cd e r) <> Err EntryIndexOutOfBounds.
Proof.
  rewrite er_read_to_end_checked_spec. pose proof (er_read_to_end_spec cd r) as H. destruct (er_read_to_end cd r) as [[b|x|p] r'].
  - now destruct (_ =? _).
  - destruct H as (u & _ & H). destruct x; try easy.
  - discriminate.
Qed.
Lemma fs_index cd fs x i : len (f_entries (x_file x)) <= i <-> fs_read_entry cd fs x i = Err EntryIndexOutOfBounds.
Proof.
  split; intro H.
  - apply entry_at_none in H. rewrite fs_read_is. now rewrite H.
  - rewrite fs_read_is in H. destruct (entry_at (x_file x) i) as [e|] eqn:E; [|now apply entry_at_none]. exfalso.
    destruct (fs (x_path x)) as [io|d q]; [discriminate|]. unfold read_entry in H.
    assert (L : i < len (f_entries (x_file x))).
    { destruct (N.lt_ge_cases i (len (f_entries (x_file x)))) as [L|L]; [exact L|]. apply entry_at_none in L. congruence. }
    pose proof (proj2 (seek_reader_bounds (x_file x) i (fresh d q)) L) as B.
    destruct (seek_reader_at (x_file x) i (fresh d q)) as [[[r e']|y|p] s]; cbn [fst] in B; [|congruence|congruence].
    revert H. apply checked_not_bounds.
Qed.

(** a handle stays with what it was opened on *)
Lemma fs_reader_inv fs x i r e : fs_reader_at fs x i = Ok (r, e) ->
  entry_at (x_file x) i = Some e /\ exists d q s, fs (x_path x) = Opens d q /\
    r = er_new s (en_compression (st_entry e)) (en_compressed_size (st_entry e)) /\ s_data s = d /\ s_pos s = data_start d (st_file_offset e).
Proof.
  unfold fs_reader_at, fs_open. destruct (entry_at (x_file x) i) as [e0|]; [|discriminate].
  destruct (fs (x_path x)) as [io|d q]; [discriminate|]. cbn [rbind]. fold (fresh d q).
  assert (I : insens (seek_to_data_offset e0)) by auto with insens. specialize (I (fresh d q)). unfold agrees in I.
  change (calm (fresh d q)) with (cursor d) in I.
  destruct (seek_closed e0 d 0) as (p & E & Hp). change (src d 0) with (cursor d) in E. rewrite E in I.
  destruct (seek_to_data_offset e0 (fresh d q)) as [[u|y|pn] s']; try discriminate. intro H. injection H as <- <-.
  split; [reflexivity|]. exists d, q, s'. split; [reflexivity|]. split; [reflexivity|].
  destruct I as (_ & _ & D & v & _ & [(_ & A & C)|(pre & c & _ & _ & X)]); [|discriminate].
  destruct (data_offset _ _) as [o|x0|pn] eqn:Ed; cbn [as_unit] in A; try discriminate.
  split; [exact D|]. rewrite (Hp o eq_refl), (data_offset_spec _ _ _ Ed) in C. 
  apply (f_equal s_pos) in C. cbn in C. congruence.
Qed.
Lemma fs_interleaved cd fs x ops rs k i r e d q : nth_error rs k = Some r -> fs (x_path x) = Opens d q -> fs_reader_at fs x i = Ok (r, e) ->
  let '(xs, rs') := interleave cd ops rs in
  prefix (delivered (own_results k xs)) (fst (decoded cd (en_compression (st_entry e)) (region d e))) /\
  exists r', nth_error rs' k = Some r' /\ forall n, 0 < n -> fst (er_read cd n r') = Ok [] ->
      decoded cd (en_compression (st_entry e)) (region d e) = (delivered (own_results k xs), true).
Proof.
  intros Hk O Hm. apply fs_reader_inv in Hm as (_ & d0 & q0 & s & O2 & Hr & D & P0). rewrite O in O2. injection O2 as <- <-.
  pose proof (interleave_own cd ops rs k r Hk) as H.
  destruct (interleave cd ops rs) as [xs rs']. destruct H as (H & r' & Hr').
  rewrite Hr' in H. rewrite Hr in H. rewrite region_take.
  pose proof (reads_prefix cd (own k ops) s (en_compression (st_entry e)) (en_compressed_size (st_entry e))) as P.
  rewrite H, D, P0 in P. destruct P as [P1 P2]. split; [exact P1|]. exists r'. split; [exact Hr'|]. exact P2.
Qed.
Lemma fs_gone cd cfg fs x i e : fs (x_path x) = OpenFails e ->
  fs_new cfg fs (x_path x) = Err (UpstreamReadError e) /\
  (i < len (f_entries (x_file x)) -> fs_read_entry cd fs x i = Err (UpstreamReadError e)).
Proof.
  intro O. rewrite fs_new_is, fs_read_is, O. split; [reflexivity|]. intro L.
  destruct (entry_at (x_file x) i) as [st|] eqn:E; [reflexivity|]. apply entry_at_none in E. lia.
Qed.
