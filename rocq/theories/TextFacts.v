(** Names and comments read back. *)
From Verif Require Import Base BaseFacts Crc32 CrcFacts ZString Headers ExtraField Entry EntryReader Reader
  SpecFormat SpecCrc SpecUtf8 SpecArchive SpecWrite WriteProofs.

(** ** Only the fields of one kind matter *)
Record kind (mk : unicode_field -> extra_field) (pr : extra_field -> list unicode_field) : Prop := {
  kd_mk : forall u, pr (mk u) = [u];
  kd_other : forall x, (exists u, x = mk u) \/ (pr x = [] /\ forall u, x <> mk u) }.
Definition pr_path (x : extra_field) : list unicode_field := match x with XPath u => [u] | _ => [] end.
Definition pr_comment (x : extra_field) : list unicode_field := match x with XComment u => [u] | _ => [] end.
Lemma kind_path : kind XPath pr_path.
Proof. split; [easy|]. intros [z|u|u|id sz c]; try (right; split; [easy|discriminate]). left. now exists u. Qed.
Lemma kind_comment : kind XComment pr_comment.
Proof. split; [easy|]. intros [z|u|u|id sz c]; try (right; split; [easy|discriminate]). left. now exists u. Qed.

Section Kind.
Variables (mk : unicode_field -> extra_field) (pr : extra_field -> list unicode_field).
Hypothesis K : kind mk pr.
Definition view (l : list extra_field) : list unicode_field := flat_map pr l.
Lemma view_app a b : view (a ++ b) = view a ++ view b. Proof. apply flat_map_app. Qed.
Lemma view_mk u : view [mk u] = [u]. Proof. unfold view. cbn. now rewrite (kd_mk _ _ K). Qed.
Lemma view_cons_mk u l : view (mk u :: l) = u :: view l. Proof. unfold view. cbn [flat_map]. now rewrite (kd_mk _ _ K). Qed.
Lemma view_none l : none_of mk l <-> view l = [].
Proof.
  induction l as [|x l IH]; [split; [easy|constructor]|]. unfold view in *. cbn [flat_map].
  destruct (kd_other _ _ K x) as [(u & ->)|[E N]].
  - rewrite (kd_mk _ _ K). split; [|discriminate]. intro H. inversion H; subst. now elim (H2 u).
  - rewrite E. cbn [app]. rewrite <- IH. split; intro H; [now inversion H|now constructor].
Qed.
(** every decomposition of the view comes from one of the list *)
Lemma view_split l a u b : view l = a ++ u :: b -> exists l1 l2, l = l1 ++ mk u :: l2 /\ view l1 = a /\ view l2 = b.
Proof.
  revert a. induction l as [|x l IH]; intros a E; [now destruct a|]. unfold view in E. cbn [flat_map] in E. fold (view l) in E.
  destruct (kd_other _ _ K x) as [(v & ->)|[N _]].
  - rewrite (kd_mk _ _ K) in E. destruct a as [|w a].
    + cbn in E. injection E as -> E. exists [], l. auto.
    + cbn in E. injection E as -> E. destruct (IH a E) as (l1 & l2 & -> & E1 & E2). exists (mk w :: l1), l2.
      split; [easy|]. split; [|easy]. rewrite view_cons_mk. now rewrite E1.
  - rewrite N in E. cbn [app] in E. destruct (IH a E) as (l1 & l2 & -> & E1 & E2). exists (x :: l1), l2.
    split; [easy|]. split; [|easy]. unfold view. cbn [flat_map]. rewrite N. exact E1.
Qed.

Definition says (basic : bytes) (u : unicode_field) : Prop := exists text, u = UV1 (crc32_spec basic) text.
Lemma mk_inj u v : mk u = mk v -> u = v.
Proof. intro H. assert (pr (mk u) = pr (mk v)) by now rewrite H. rewrite !(kd_mk _ _ K) in H0. congruence. Qed.
Lemma silent_view basic l : Forall (fun x => ~ speaks_of mk basic x) l <-> Forall (fun u => ~ says basic u) (view l).
Proof.
  induction l as [|x l IH]; [split; constructor|]. unfold view. cbn [flat_map]. fold (view l). rewrite Forall_app, Forall_cons_iff, IH.
  destruct (kd_other _ _ K x) as [(u & ->)|[E N]].
  - rewrite (kd_mk _ _ K), Forall_cons_iff. split.
    + intros [H1 H2]. split; [|easy]. split; [|constructor]. intros (t & ->). apply H1. now exists t.
    + intros [[H1 _] H2]. split; [|easy]. intros (t & E). apply H1. exists t. now apply mk_inj.
  - rewrite E. split; [intros [_ H]; split; [constructor|easy]|]. intros [_ H]. split; [|easy]. intros (t & E'). now elim (N (UV1 (crc32_spec basic) t)).
Qed.
Definition mute (basic : bytes) (v : list unicode_field) : Prop :=
  Forall (fun u => ~ says basic u) v \/
  exists a text b, v = a ++ UV1 (crc32_spec basic) text :: b /\ Forall (fun u => ~ says basic u) a /\ ~ is_utf8 text.
Lemma no_text_view basic l : no_text mk basic l <-> mute basic (view l).
Proof.
  split.
  - intros [H|(a & t & b & -> & H & N)]; [left; now apply silent_view|right].
    exists (view a), t, (view b). rewrite view_app, view_cons_mk. split; [easy|]. split; [now apply silent_view|easy].
  - intros [H|(a & t & b & E & H & N)]; [left; now apply silent_view|right].
    apply view_split in E as (l1 & l2 & -> & <- & <-). exists l1, t, l2. split; [easy|]. split; [now apply silent_view|easy].
Qed.
Inductive reads_view (flag : bool) (v : list unicode_field) (basic : bytes) : zstring -> Prop :=
| rv_flag : flag = true -> is_utf8 basic -> reads_view flag v basic {| zs_enc := EUtf8; zs_raw := basic; zs_alt := None |}
| rv_flag_invalid : flag = true -> ~ is_utf8 basic -> reads_view flag v basic {| zs_enc := ERaw; zs_raw := basic; zs_alt := None |}
| rv_field a text b : flag = false -> v = a ++ UV1 (crc32_spec basic) text :: b -> Forall (fun u => ~ says basic u) a -> is_utf8 text ->
    reads_view flag v basic {| zs_enc := EUtf8; zs_raw := text; zs_alt := Some basic |}
| rv_ascii : flag = false -> mute basic v -> ascii basic -> reads_view flag v basic {| zs_enc := EUtf8; zs_raw := basic; zs_alt := None |}
| rv_raw : flag = false -> mute basic v -> ~ ascii basic -> reads_view flag v basic {| zs_enc := ERaw; zs_raw := basic; zs_alt := None |}.
Lemma reads_as_view flag xs basic z : reads_as mk flag xs basic z -> reads_view flag (view xs) basic z.
Proof.
  destruct 1 as [F U|F U|a t b F -> N U|F N A|F N A].
  - now apply rv_flag.
  - now apply rv_flag_invalid.
  - apply (rv_field _ _ _ (view a) t (view b)); [easy|now rewrite view_app, view_cons_mk|now apply silent_view|easy].
  - apply rv_ascii; [easy|now apply no_text_view|easy].
  - apply rv_raw; [easy|now apply no_text_view|easy].
Qed.

(** ** What spelling does to it *)
Lemma spelled_view s xs ys : spelled mk s xs ys ->
  (zs_enc s = EUtf8 /\ zs_raw s <> [] /\
     ((view xs = [] /\ view ys = [UV1 (crc32_spec (stored_bytes s)) (zs_raw s)]) \/
      (exists crc old b, view xs = UV1 crc old :: b /\ view ys = UV1 (crc32_spec (stored_bytes s)) (zs_raw s) :: b) \/
      (exists v d b, view xs = UUnknown v d :: b /\ view ys = view xs))) \/
  ((zs_enc s <> EUtf8 \/ zs_raw s = []) /\ view ys = view xs).
Proof.
  destruct 1 as [xs ys E N T|xs H]; [left|right; auto]. split; [easy|]. split; [easy|].
  destruct T as [xs N0|a crc old b N0|a v d b N0].
  - left. apply view_none in N0. rewrite view_app, view_mk, N0. auto.
  - right; left. exists crc, old, (view b). apply view_none in N0. now rewrite !view_app, !view_cons_mk, N0.
  - right; right. exists v, d, (view b). apply view_none in N0. now rewrite !view_app, !view_cons_mk, N0.
Qed.
(** the other kind's spelling leaves it alone *)
Lemma spelled_other (mk2 : unicode_field -> extra_field) s xs ys : (forall u, pr (mk2 u) = []) -> spelled mk2 s xs ys -> view ys = view xs.
Proof.
  intro H. destruct 1 as [xs ys _ _ T|xs _]; [|easy]. destruct T as [xs _|a crc old b _|a v d b _]; [| |easy].
  - rewrite view_app. unfold view at 2. cbn. rewrite H. now rewrite !app_nil_r.
  - rewrite !view_app. unfold view at 2 4. cbn. now rewrite !H.
Qed.
Lemma view_zip64 l : (forall z, pr (XZip64 z) = []) -> Forall (fun x => exists z, x = XZip64 z) l -> view l = [].
Proof. intro H. induction 1 as [|x l (z & ->) _ IH]; [easy|]. unfold view in *. cbn [flat_map]. now rewrite H, IH. Qed.

Lemma says_first basic t b : exists t', UV1 (crc32_spec basic) t :: b = [] ++ UV1 (crc32_spec basic) t' :: b /\ t' = t.
Proof. now exists t. Qed.
Lemma first_read basic t b z : reads_view false (UV1 (crc32_spec basic) t :: b) basic z -> is_utf8 t ->
  z = {| zs_enc := EUtf8; zs_raw := t; zs_alt := Some basic |}.
Proof.
  intros R U.
  assert (M : ~ mute basic (UV1 (crc32_spec basic) t :: b)).
  { intros [H|(a & t' & b' & E & H & N)].
    - inversion H; subst. apply H2. now exists t.
    - destruct a as [|u a]; cbn in E; injection E as E1 E2; [congruence|]. subst u. inversion H; subst. apply H2. now exists t. }
  destruct R as [F|F|a t' b' _ E N' _|_ N'|_ N']; try discriminate; try contradiction.
  destruct a as [|u a]; cbn in E; injection E as E1 E2; [now subst|]. subst u. inversion N'; subst. elim H1. now exists t.
Qed.
Lemma mute_reads basic v z : mute basic v -> reads_view false v basic z ->
  (ascii basic /\ z = {| zs_enc := EUtf8; zs_raw := basic; zs_alt := None |}) \/
  (~ ascii basic /\ z = {| zs_enc := ERaw; zs_raw := basic; zs_alt := None |}).
Proof.
  intros M R. destruct R as [F|F|a t' b' _ E N' U|_ N'|_ N']; try discriminate; auto. exfalso.
  destruct M as [H|(a2 & t2 & b2 & E2 & H2 & N2)].
  - rewrite E in H. apply Forall_app in H as [_ H]. inversion H; subst. apply H2. now exists t'.
  - rewrite E in E2. clear E. revert a2 E2 H2. induction a as [|u a IH]; intros [|u2 a2] E2 H2; cbn in E2; injection E2 as E3 E4.
    + congruence.
    + subst u2. inversion H2; subst. apply H1. now exists t'.
    + subst u. inversion N'; subst. apply H1. now exists t2.
    + apply Forall_inv_tail in N'. apply Forall_inv_tail in H2. exact (IH N' a2 E4 H2).
Qed.

Lemma text_back s xs ys z : sound_string s -> text_clear mk s xs -> spelled mk s xs ys ->
  reads_view false (view ys) (stored_bytes s) z -> same_text s z.
Proof.
  intros [S1 S2] C SP R. apply spelled_view in SP.
  assert (G : zs_enc s = EUtf8 -> zs_raw s <> [] -> forall b, view ys = UV1 (crc32_spec (stored_bytes s)) (zs_raw s) :: b -> same_text s z).
  { intros E N b V. rewrite V in R. apply first_read in R; [|auto]. subst z. unfold same_text. cbn [zs_raw zs_enc zs_alt].
    split; [easy|]. split; [easy|]. split; [|split; [congruence|reflexivity]]. intros a A. unfold stored_bytes. now rewrite A. }
  assert (Q : zs_alt s = None -> (zs_enc s = EUtf8 -> ascii (zs_raw s)) -> mute (zs_raw s) (view ys) -> same_text s z).
  { intros A AS M. unfold stored_bytes in R. rewrite A in R. destruct (mute_reads _ _ _ M R) as [[B ->]|[B ->]];
      unfold same_text, stored_bytes; cbn [zs_raw zs_enc zs_alt]; rewrite A; ands; try easy.
    - intros E. now elim B; auto. }
  destruct SP as [(E & N & [[V1 V2]|[(crc & old & b & V1 & V2)|(v & d & b & V1 & V2)]])|[H V]].
  - eapply G; eauto.
  - eapply G; eauto.
  - destruct C as [(_ & _ & [F|(a & crc & old & b' & -> & F)])|(A & AS & NT)].
    + apply view_none in F. congruence.
    + apply view_none in F. rewrite view_app, F, view_cons_mk in V1. discriminate.
    + apply Q; auto. rewrite V2. now apply no_text_view.
  - destruct C as [(E & N & _)|(A & AS & NT)]; [now destruct H|]. apply Q; auto. rewrite V. now apply no_text_view.
Qed.
End Kind.

(** ** The entry *)
Lemma in_local it : Forall (fun x => exists z, x = XZip64 z) (local_zip64 it).
Proof. unfold local_zip64, zip64_extra. destruct (i_stream it), (i_no64 it), (i_big it); repeat constructor; now eexists. Qed.
Lemma in_a_zip64 a : Forall (fun x => exists z, x = XZip64 z) (a_zip64 a).
Proof. unfold a_zip64. destruct (_ || _); repeat constructor. now eexists. Qed.
Lemma extras_view pr it a v f lx : (forall z, pr (XZip64 z) = []) -> laid_out it a v f lx -> view pr (a_extras a) = view pr lx.
Proof.
  intros Z LO. destruct (lo_extras _ _ _ _ _ LO) as (b & t & E & B & A). unfold a_extras. rewrite E, B, A, !view_app.
  rewrite (view_zip64 pr _ Z (in_local it)), (view_zip64 pr _ Z (in_a_zip64 a)). cbn [app].
  destruct (_ && _); [now rewrite !app_nil_r|]. now rewrite app_nil_r.
Qed.
Lemma own_view pr it : (forall z, pr (XZip64 z) = []) -> view pr (en_extra (i_entry it) ++ local_zip64 it) = view pr (en_extra (i_entry it)).
Proof. intro Z. rewrite view_app, (view_zip64 pr _ Z (in_local it)). apply app_nil_r. Qed.
Lemma plain_same s t : plain_text s -> sound_string s -> zs_raw t = zs_raw s -> zs_enc t = EUtf8 -> zs_alt t = None -> same_text s t.
Proof.
  intros [P1 P2] _ R E A. unfold same_text, stored_bytes. rewrite R, E, A, P1, P2. ands; try easy. 
Qed.
Lemma texts_back_view it a v f lx n c : laid_out it a v f lx ->
  reads_view f (view pr_path lx) (i_name it) n -> reads_view f (view pr_comment lx) (i_comment it) c ->
  texts_clear (i_entry it) ->
  same_text (en_filename (i_entry it)) n /\ same_text (en_comment (i_entry it)) c.
Proof.
  intros LO R1 R2 (S1 & S2 & C).
  pose proof (lo_local _ _ _ _ _ LO) as T. remember (en_extra (i_entry it) ++ local_zip64 it) as xs eqn:X.
  destruct T as [xs P1 P2|xs ys zs NP SP1 SP2].
  - assert (G : forall pr s z, plain_text s -> sound_string s -> reads_view true (view pr xs) (stored_bytes s) z -> same_text s z).
    { intros pr s z P S R. destruct P as [P1' P2']. assert (SB : stored_bytes s = zs_raw s) by (unfold stored_bytes; now rewrite P2').
      rewrite SB in R. destruct R as [_ U|_ U| | |]; try discriminate; [now apply plain_same|]. elim U. now apply S. }
    split; [now apply (G pr_path)|now apply (G pr_comment)].
  - destruct C as [C|[C1 C2]]; [contradiction|].
    assert (V1 : view pr_path zs = view pr_path ys) by (apply (spelled_other pr_path XComment (en_comment (i_entry it))); easy).
    assert (V2 : view pr_comment ys = view pr_comment xs) by (apply (spelled_other pr_comment XPath (en_filename (i_entry it))); easy).
    (* the caller's fields and the ZIP64 field *)
    assert (W1 : view pr_path xs = view pr_path (en_extra (i_entry it))) by (rewrite X; now apply own_view).
    assert (W2 : view pr_comment xs = view pr_comment (en_extra (i_entry it))) by (rewrite X; now apply own_view).
    split.
    + rewrite V1 in R1. refine (text_back _ _ kind_path _ xs ys _ S1 _ SP1 R1).
      destruct C1 as [(E & N & F)|(A & AS & NT)]; [left|right].
      * split; [easy|]. split; [easy|]. destruct F as [F|(p & crc & old & q & EX & F)].
        -- left. apply (view_none _ _ kind_path). rewrite W1. now apply (view_none _ _ kind_path).
        -- right. assert (VE : view pr_path xs = [] ++ UV1 crc old :: view pr_path q).
           { rewrite W1, EX, view_app, (view_cons_mk _ _ kind_path). apply (view_none _ _ kind_path) in F. now rewrite F. }
           apply (view_split _ _ kind_path) in VE as (l1 & l2 & -> & VE & _). exists l1, crc, old, l2. split; [easy|]. now apply (view_none _ _ kind_path).
      * split; [easy|]. split; [easy|]. apply (no_text_view _ _ kind_path). rewrite W1. now apply (no_text_view _ _ kind_path).
    + refine (text_back _ _ kind_comment _ ys zs _ S2 _ SP2 R2).
      destruct C2 as [(E & N & F)|(A & AS & NT)]; [left|right].
      * split; [easy|]. split; [easy|]. destruct F as [F|(p & crc & old & q & EX & F)].
        -- left. apply (view_none _ _ kind_comment). rewrite V2, W2. now apply (view_none _ _ kind_comment).
        -- right. assert (VE : view pr_comment ys = [] ++ UV1 crc old :: view pr_comment q).
           { rewrite V2, W2, EX, view_app, (view_cons_mk _ _ kind_comment). apply (view_none _ _ kind_comment) in F. now rewrite F. }
           apply (view_split _ _ kind_comment) in VE as (l1 & l2 & -> & VE & _). exists l1, crc, old, l2. split; [easy|]. now apply (view_none _ _ kind_comment).
      * split; [easy|]. split; [easy|]. apply (no_text_view _ _ kind_comment). rewrite V2, W2. now apply (no_text_view _ _ kind_comment).
Qed.
Lemma texts_back it a v f lx st : laid_out it a v f lx -> reported a st ->
  sound_string (en_filename (i_entry it)) -> sound_string (en_comment (i_entry it)) ->
  (plain_text (en_filename (i_entry it)) /\ plain_text (en_comment (i_entry it)) \/
   text_clear XPath (en_filename (i_entry it)) (en_extra (i_entry it)) /\ text_clear XComment (en_comment (i_entry it)) (en_extra (i_entry it))) ->
  same_text (en_filename (i_entry it)) (en_filename (st_entry st)) /\ same_text (en_comment (i_entry it)) (en_comment (st_entry st)).
Proof.
  intros LO (R1 & R2 & _) S1 S2 C.
  rewrite (lo_flags _ _ _ _ _ LO), (lo_name _ _ _ _ _ LO) in R1. rewrite (lo_flags _ _ _ _ _ LO), (lo_comment _ _ _ _ _ LO) in R2.
  assert (BIT : N.testbit (flag_word false (i_stream it) f) 11 = f) by (destruct (i_stream it), f; reflexivity). rewrite BIT in R1, R2.
  apply (reads_as_view _ _ kind_path) in R1. apply (reads_as_view _ _ kind_comment) in R2.
  rewrite (extras_view pr_path it a v f lx) in R1 by easy. rewrite (extras_view pr_comment it a v f lx) in R2 by easy.
  apply (texts_back_view it a v f lx); try assumption. unfold texts_clear. auto.
Qed.
