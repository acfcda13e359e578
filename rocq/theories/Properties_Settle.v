(** Property theorems: copies of copies. *)
From Verif Require Import Base BaseFacts SpecFormat SpecCrc SpecUtf8 SpecArchive SpecRead SpecWrite ZString ZDate Headers ExtraField Entry
  IO IOFacts Reader EntryReader Writer Samples WriteSamples SpecCopy CopyProofs Utf8 Utf8Facts Properties_Further SpecSettle SettleProofs.

(** * C72. Copying settles: an [n]-th copy, [n] at least 2, is copied as it is, if no entry began with more than [n] empty extra
    fields at the end of its list: the entries are the same in every field ... *)
Theorem C72_settled cd cfg n es es1 es2 : codec_ok cd -> Forall copyable es -> (2 <= n)%nat -> Forall (fun x => (trailing x <= n)%nat) es ->
  copies cd cfg n es es1 -> copied cd cfg es1 es2 -> es2 = es1.
Proof. exact (settled cd cfg n es es1 es2). Qed.
Print Assumptions C72_settled.
(** ... and so are, from there on, the bytes of the archives. *)
Theorem C72_bytes cd cfg n es es1 d d' es2 es3 : codec_ok cd -> Forall copyable es -> (2 <= n)%nat -> Forall (fun x => (trailing x <= n)%nat) es ->
  copies cd cfg n es es1 -> copied_as cd cfg es1 d es2 -> copied_as cd cfg es2 d' es3 -> d' = d /\ es2 = es1 /\ es3 = es1.
Proof. exact (settled_bytes cd cfg n es es1 d d' es2 es3). Qed.
Print Assumptions C72_bytes.

Lemma regrown_as es es' : regrown es = Some es' -> exists d, copied_as toy cfg0 es d es'.
Proof.
  intro H. pose proof H as H'. apply regrown_ok in H'. unfold regrown in H. exists (w_bytes (snd (run_archive toy bumpy (copy_ops es)))). exists bumpy.
  split; [repeat constructor; discriminate|]. destruct (run_archive toy bumpy (copy_ops es)) as [[xs r] w]. cbn [snd].
  destruct (worked r) eqn:W; [|discriminate]. destruct (forallb _ xs) eqn:X; [|discriminate]. destruct (clear_end _ _ _ _) eqn:C; [|discriminate]. cbn [andb] in H.
  split; [destruct r as [[]| |]; easy|]. split; [apply Forall_forall; now apply forallb_forall|]. split; [reflexivity|]. split; [|now apply pull_ok].
  pose proof (clear_end_ok toy [] _ _ _ C) as (_ & _ & S & E & _). unfold clear_end in C.
  apply andb_true_iff in C as [C _]. apply andb_true_iff in C as [C _]. apply andb_true_iff in C as [C _]. apply andb_true_iff in C as [C A4].
  apply andb_true_iff in C as [C A3]. apply N.leb_le in A3, A4. unfold len in A4. rewrite map_length in A4.
  split; [exact A3|]. split; [exact E|]. cbn [entry_mem_size cfg0]. unfold len. lia.
Qed.
Example C72_case : codec_ok toy /\ Forall copyable crowd /\ Forall (fun x => (trailing x <= 2)%nat) crowd /\
  exists es1 d es2 d' es3, copies toy cfg0 2 crowd es1 /\ copied_as toy cfg0 es1 d es2 /\ copied_as toy cfg0 es2 d' es3 /\ len es1 = 4.
Proof.
  split; [exact toy_ok|]. split; [apply C40_case|]. split; [repeat constructor|].
  assert (H : match regrown crowd with Some a => match regrown a with Some b => match regrown b with Some c => match regrown c with Some e => len b = 4 | _ => False end
    | _ => False end | _ => False end | _ => False end) by (vm_compute; reflexivity).
  destruct (regrown crowd) as [a|] eqn:A; [|easy]. destruct (regrown a) as [b|] eqn:B; [|easy]. destruct (regrown b) as [c|] eqn:C; [|easy]. destruct (regrown c) as [e|] eqn:E; [|easy].
  destruct (regrown_as _ _ C) as (d & D). destruct (regrown_as _ _ E) as (d' & D').
  exists b, d, c, d', e. split; [|split; [exact D|split; [exact D'|exact H]]]. repeat (eapply copies_more; [apply regrown_ok; eassumption|]). constructor.
Qed.

(** The bounds are needed: with three empty fields at the end the third copy is not the second, ... *)
Definition hollow : zentry := mk_entry (utf8 [x61]) (utf8 []) Stored [XUnknown 7 0 []; XUnknown 8 0 []; XUnknown 9 0 []].
Theorem C72_empty : exists es es1 es2, Forall copyable es /\ Forall (fun x => (trailing x <= 3)%nat) es /\
  copies toy cfg0 2 es es1 /\ copied toy cfg0 es1 es2 /\ es2 <> es1.
Proof.
  assert (H : match regrown [(hollow, [x01])] with Some a => match regrown a with Some b => match regrown b with
      Some c => map trailing c = [0%nat] /\ map trailing b = [1%nat] | _ => False end | _ => False end | _ => False end)
    by (vm_compute; split; reflexivity).
  destruct (regrown [(hollow, [x01])]) as [a|] eqn:A; [|easy]. destruct (regrown a) as [b|] eqn:B; [|easy]. destruct (regrown b) as [c|] eqn:C; [|easy].
  exists [(hollow, [x01])], b, c. split.
  { constructor; [|constructor]. split; [split; [repeat split|repeat constructor; cbn; lia]|]. split; [cbn; lia|].
    split; [split; [intros _; now apply utf8_valid_iff|discriminate]|]. split; [split; [intros _; now apply utf8_valid_iff|discriminate]|]. left. repeat split. }
  split; [repeat constructor|]. split; [repeat (eapply copies_more; [apply regrown_ok; eassumption|]); constructor|]. split; [now apply regrown_ok|].
  intros ->. destruct H as [H1 H2]. rewrite H1 in H2. discriminate.
Qed.
Print Assumptions C72_empty.
(** ... and the second copy need not be the first: a name given as raw ASCII bytes comes back as text, and gets a Unicode field next. *)
Definition rawascii : zentry := mk_entry {| zs_enc := ERaw; zs_raw := [x61]; zs_alt := None |} (utf8 [xc3; xa9]) Stored [].
Theorem C72_second : exists es es1 es2, Forall copyable es /\ Forall (fun x => trailing x = 0%nat) es /\
  copies toy cfg0 1 es es1 /\ copied toy cfg0 es1 es2 /\ es2 <> es1.
Proof.
  assert (H : match regrown [(rawascii, [x01])] with Some a => match regrown a with Some b =>
      map (fun x => len (en_extra (fst x))) b = [2] /\ map (fun x => len (en_extra (fst x))) a = [1] | _ => False end | _ => False end)
    by (vm_compute; split; reflexivity).
  destruct (regrown [(rawascii, [x01])]) as [a|] eqn:A; [|easy]. destruct (regrown a) as [b|] eqn:B; [|easy].
  exists [(rawascii, [x01])], a, b. split.
  { constructor; [|constructor]. split; [split; [repeat split|repeat constructor; cbn; lia]|]. split; [cbn; lia|].
    split; [split; [discriminate|easy]|]. split; [split; [intros _; now apply utf8_valid_iff|discriminate]|]. right. split; left.
    - right. split; [reflexivity|]. split; [discriminate|]. left. repeat constructor.
    - left. split; [reflexivity|]. split; [discriminate|]. left. repeat constructor. }
  split; [repeat constructor|]. split; [repeat (eapply copies_more; [apply regrown_ok; eassumption|]); constructor|]. split; [now apply regrown_ok|].
  intros ->. destruct H as [H1 H2]. rewrite H1 in H2. discriminate.
Qed.
Print Assumptions C72_second.
