(** Concrete writer histories for the examples. *)
From Verif Require Import Base BaseFacts IOFacts SpecFormat SpecCrc SpecArchive ZString ZDate Headers ExtraField Entry IO Reader EntryReader Writer SpecWrite Samples.

Lemma toy_takes : enc_takes toy.
Proof.
  intros st b H. cbn. assert (len b <> 0) by (intro E; apply H; now apply len_0). lia.
Qed.
Lemma toy_decodes l rest : toy_dec (flat_map (fun x => [x01; x]) l ++ x00 :: rest) = (l, Some (2 * len l + 1)).
Proof.
  induction l as [|b l IH]; cbn [flat_map app toy_dec]; [reflexivity|]. rewrite IH. f_equal. f_equal. unfold len. cbn [length]. lia.
Qed.
Lemma toy_runs st fed out st' : enc_runs toy st fed out st' -> out = flat_map (fun x => [x01; x]) fed.
Proof.
  induction 1 as [|st b n o st1 fed out st2 E _ IH|st o st1 fed out st2 E _ IH]; [easy| |].
  - cbn in E. injection E as <- <- _. rewrite flat_map_app, IH. f_equal. f_equal.
    rewrite take_firstn. destruct (N.min_spec 3 (len b)) as [[H ->]|[H ->]]; [reflexivity|].
    rewrite !firstn_all2; [easy|unfold len; lia|unfold len in H; lia].
  - cbn in E. injection E as <- _. exact IH.
Qed.
Lemma toy_ok : codec_ok toy.
Proof.
  split; [exact toy_takes|]. intros c level fed out st rest _ _ R. apply toy_runs in R. subst out. cbn.
  rewrite <- app_assoc. cbn [app]. rewrite toy_decodes. f_equal. f_equal.
  rewrite len_app. change (len [x00]) with 1. f_equal.
  induction fed as [|b l IH]; [reflexivity|]. cbn [flat_map]. rewrite len_app, <- IH. unfold len. cbn [length]. lia.
Qed.

Definition utf8 (l : bytes) : zstring := {| zs_enc := EUtf8; zs_raw := l; zs_alt := None |}.
Definition mk_entry (name comment : zstring) (c : compression) (xs : list extra_field) : zentry :=
  {| en_filename := name; en_compression := c; en_level := LDefault; en_crc32 := 0; en_uncompressed_size := 0;
     en_compressed_size := 0; en_iattr := 0; en_eattr := 0x81A40000; en_date := {| zd_date := 33; zd_time := 7 |};
     en_extra := xs; en_comment := comment; en_attr_compat := Unix; en_data_descriptor := false |}.
Definition entry1 : zentry := mk_entry (utf8 [x61]) (utf8 [x6b]) Stored [XUnknown 0xCAFE 2 [x01; x02]].
(** a name with an alternative *)
Definition entry2 : zentry :=
  mk_entry {| zs_enc := EUtf8; zs_raw := [xc3; xa9]; zs_alt := Some [x82] |} (utf8 []) Deflate [].
Definition history : list wop :=
  [OpWhole entry1 [x68; x69; x21];
   OpStream false entry2 [SWriteAll [x01; x02; x03; x04; x05]; SFlush; SWriteAll []; SWriteAll [x06]] true;
   OpComment [x68; x65; x79];
   OpStream false entry2 [SWriteAll [x07; x08]] false;
   OpWhole entry2 [x09]].
Definition bumpy : list wevent := [WPending; WAccept 3; WPending; WPending; WAccept 1; WAccept 200; WAccept 2].

(** deciding that a short archive is unambiguous *)
Definition clear_end (xs : list (wop * res unit)) (zip64 : bool) (comment d : bytes) : bool :=
  (len comment <=? 65535) && (len comment + 42 <=? len d) && (len d <=? 0xFFFFFFFF) && (len xs <=? 0xFFFFFFFF) &&
  forallb (fun x => negb (too_many (snd x))) xs &&
  none_after (le 4 0x06054b50) d (len d - 22 - len comment) && (zip64 || negb (at_pos (le 4 0x07064b50) d (len d - 42 - len comment))).
Lemma succeeded_short xs : forall no64, len (succeeded no64 xs) <= len xs.
Proof.
  induction xs as [|[o r] xs IH]; intro no64; [reflexivity|]. cbn [succeeded]. rewrite len_app. specialize (IH (no_after no64 o)).
  destruct (_ && _); unfold len in *; cbn [length]; lia.
Qed.
Lemma clear_end_ok cd l xs zip64 d : clear_end xs zip64 (last_comment l) d = true -> unambiguous cd cfg0 l xs zip64 d.
Proof.
  unfold clear_end. intro H. apply andb_true_iff in H as [H A7]. apply andb_true_iff in H as [H A6]. apply andb_true_iff in H as [H A5].
  apply andb_true_iff in H as [H A4]. apply andb_true_iff in H as [H A3]. apply andb_true_iff in H as [A1 A2]. apply N.leb_le in A1, A2, A3, A4.
  set (c := last_comment l) in *. split; [lia|]. split.
  { intros _. apply Forall_forall. rewrite forallb_forall in A5. intros x I. apply negb_true_iff. exact (A5 x I). }
  split; [left; assumption|]. split.
  - split; [assumption|]. split.
    + intros q Q. pose proof (none_after_ok (le 4 0x06054b50) d _ ltac:(reflexivity) A6 q Q). fold c. lia.
    + intros -> q Q E. cbn [orb] in A7. apply negb_true_iff in A7. apply not_at_ok in A7. apply A7.
      fold c in E. replace (len d - 42 - len c) with q by lia. exact Q.
  - pose proof (succeeded_short xs false). cbn [entry_mem_size cfg0]. lia.
Qed.
(** looking into a short archive *)
Definition opened {A} (d : bytes) (g : zfile -> A) : option A := match mem_new cfg0 d with Ok m => Some (g (m_file m)) | _ => None end.
Lemma opened_ok {A} d (g : zfile -> A) a : opened d g = Some a -> exists f, mem_new cfg0 d = Ok {| m_data := d; m_file := f |} /\ g f = a.
Proof.
  unfold opened, mem_new. destruct (fst (file cfg0 (cursor d))) as [f|e|p]; try discriminate. intro H. injection H as <-. now exists f.
Qed.
