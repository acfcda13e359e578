(** Facts about extra fields. *)
From Verif Require Import Base BaseFacts Headers SpecFormat HeadersFacts ExtraField.
Arguments N.mul : simpl never.
Arguments N.add : simpl never.
Arguments N.sub : simpl never.
Arguments N.div : simpl never.
Arguments to_le : simpl never.
Arguments from_le : simpl never.

Lemma slice_app3 {A} a b (x y z : list A) : len x = a -> len y = b - a -> slice a b (x ++ y ++ z) = y.
Proof. intros Hx Hy. unfold slice. rewrite drop_app_exact by easy. now apply take_app_exact. Qed.
Lemma slice_app2 {A} a b (x y : list A) : len x = a -> len y = b - a -> slice a b (x ++ y) = y.
Proof. intros Hx Hy. rewrite <- (app_nil_r y) at 1. now apply slice_app3. Qed.
Lemma index_slice {A} a b (l : list A) : a <= b -> b <= len l -> index a b l = Ok (slice a b l).
Proof. intros. unfold index. now replace (a <=? b) with true by lia; replace (b <=? len l) with true by lia. Qed.
Lemma slice_drop {A} c a b (l : list A) : slice (c + a) (c + b) l = slice a b (drop c l).
Proof. unfold slice. rewrite drop_drop. f_equal. lia. Qed.

(** ** Well-typed fields: what an entry can carry (values have their Rust types; the data size of
    an unknown field is the length of its content, as every parsed field has it). *)
Definition opt_lt (b : N) (o : option N) : Prop := match o with Some v => v < b | None => True end.
Definition zip64_wt (z : zip64_field) : Prop :=
  opt_lt 18446744073709551616 (zf_uncompressed z) /\ opt_lt 18446744073709551616 (zf_compressed z) /\
  opt_lt 18446744073709551616 (zf_offset z) /\ opt_lt 4294967296 (zf_disk z).
Definition unicode_wt (u : unicode_field) : Prop :=
  match u with UV1 crc _ => crc < 4294967296 | UUnknown v _ => b2n v <> 1 end.
Definition field_wt (x : extra_field) : Prop :=
  match x with
  | XZip64 z => zip64_wt z
  | XComment u | XPath u => unicode_wt u
  | XUnknown id sz c => id < 65536 /\ id <> ID_ZIP64 /\ id <> ID_UCOMMENT /\ id <> ID_UPATH /\ sz = len c
  end.

(** id and payload of a field *)
Definition field_id (x : extra_field) : N :=
  match x with XZip64 _ => ID_ZIP64 | XComment _ => ID_UCOMMENT | XPath _ => ID_UPATH | XUnknown id _ _ => id end.
Definition zip64_payload (z : zip64_field) : bytes :=
  opt_le 8 (fun x => x) (zf_uncompressed z) ++ opt_le 8 (fun x => x) (zf_compressed z)
  ++ opt_le 8 (fun x => x) (zf_offset z) ++ opt_le 4 (fun x => x) (zf_disk z).
Definition unicode_payload (u : unicode_field) : bytes :=
  match u with UV1 crc s => [x01] ++ to_le 4 crc ++ s | UUnknown v d => [v] ++ d end.
Definition field_payload (x : extra_field) : bytes :=
  match x with
  | XZip64 z => zip64_payload z
  | XComment u | XPath u => unicode_payload u
  | XUnknown _ _ c => c
  end.
Definition field_size_ok (x : extra_field) : Prop :=
  match x with XZip64 z => zf_disk z = None | _ => True end.

Lemma len_zip64_payload z : zf_disk z = None -> len (zip64_payload z) = content_size z.
Proof.
  intro E. unfold zip64_payload, content_size. rewrite E.
  destruct (zf_uncompressed z), (zf_compressed z), (zf_offset z); reflexivity.
Qed.
Lemma len_zip64_payload_any z :
  len (zip64_payload z) + match zf_disk z with Some _ => 4 | None => 0 end = content_size z.
Proof.
  unfold zip64_payload, content_size.
  destruct (zf_uncompressed z), (zf_compressed z), (zf_offset z), (zf_disk z); reflexivity.
Qed.
Lemma content_size_bound z : content_size z <= 32.
Proof.
  unfold content_size. destruct (zf_uncompressed z), (zf_compressed z), (zf_offset z), (zf_disk z); cbn [opt_size]; lia.
Qed.
Lemma len_unicode_payload u : len (unicode_payload u) + 4 = unicode_count_bytes u.
Proof.
  destruct u; cbn [unicode_payload unicode_count_bytes]; rewrite ?len_app, ?len_to_le; cbn [len length N.of_nat];
  change (len [x01]) with 1; try change (len [version]) with 1; lia.
Qed.

Lemma extra_eq id p : extra id p = to_le 2 id ++ to_le 2 (len p) ++ p.
Proof.
  unfold extra, record. cbn [map concat fst snd]. rewrite !le_to_le, app_nil_r, <- app_assoc. reflexivity.
Qed.
Lemma len_extra id p : len (extra id p) = 4 + len p.
Proof. rewrite extra_eq, !len_app, !len_to_le. lia. Qed.

Lemma field_as_bytes_ok x b : field_wt x -> field_size_ok x -> field_as_bytes x = Ok b ->
  b = extra (field_id x) (field_payload x) /\ len b = field_count_bytes x /\ len (field_payload x) < 65536 \/
  (exists id sz c, x = XUnknown id sz c /\ b = to_le 2 id ++ to_le 2 sz ++ c /\ len b = field_count_bytes x).
Proof.
  destruct x as [z|u|u|id sz c]; cbn [field_as_bytes field_wt field_id field_payload field_size_ok field_count_bytes]; intros Hw Hs H.
  - left. okinv H; subst b. rewrite extra_eq, len_zip64_payload by easy.
    unfold zip64_as_bytes, zip64_count_bytes. fold (zip64_payload z).
    rewrite !len_app, !len_to_le, len_zip64_payload by easy.
    pose proof (content_size_bound z). repeat split; lia.
  - left. rewrite extra_eq. pose proof (len_unicode_payload u) as L.
    destruct u; cbn [unicode_as_bytes unicode_payload unicode_count_bytes] in *.
    + destruct (5 + len unicode <? 65536) eqn:E; okinv H; subst b.
      replace (len ([x01] ++ to_le 4 crc ++ unicode)) with (5 + len unicode) in * by lia.
      rewrite !len_app, !len_to_le. change (len [x01]) with 1. repeat split; lia.
    + destruct (1 + len data <? 65536) eqn:E; okinv H; subst b.
      replace (len ([version] ++ data)) with (1 + len data) in * by lia.
      rewrite !len_app, !len_to_le. change (len [version]) with 1. repeat split; lia.
  - left. rewrite extra_eq. pose proof (len_unicode_payload u) as L.
    destruct u; cbn [unicode_as_bytes unicode_payload unicode_count_bytes] in *.
    + destruct (5 + len unicode <? 65536) eqn:E; okinv H; subst b.
      replace (len ([x01] ++ to_le 4 crc ++ unicode)) with (5 + len unicode) in * by lia.
      rewrite !len_app, !len_to_le. change (len [x01]) with 1. repeat split; lia.
    + destruct (1 + len data <? 65536) eqn:E; okinv H; subst b.
      replace (len ([version] ++ data)) with (1 + len data) in * by lia.
      rewrite !len_app, !len_to_le. change (len [version]) with 1. repeat split; lia.
  - right. okinv H; subst b. exists id, sz, c. unfold unknown_as_bytes.
    rewrite !len_app, !len_to_le. repeat split. lia.
Qed.

(** The block written for a list is the concatenation of its fields. *)
Definition fields_image (l : list extra_field) : bytes :=
  concat (map (fun x => extra (field_id x) (field_payload x)) l).

Lemma fields_as_bytes_small l :
  Forall field_wt l -> Forall field_size_ok l -> fields_count_bytes l < 65536 ->
  fields_as_bytes l = Ok (fields_image l) /\ len (fields_image l) = fields_count_bytes l
  /\ Forall (fun x => len (field_payload x) < 65536) l.
Proof.
  unfold fields_image. induction l as [|x l IH]; intros Hw Hs Hc; [now repeat split|].
  inversion Hw; inversion Hs; subst. cbn [fields_count_bytes] in Hc.
  destruct IH as (IH1 & IH2 & IH3); try easy; [lia|].
  cbn [fields_as_bytes map concat fields_count_bytes]. rewrite IH1.
  assert (exists b, field_as_bytes x = Ok b) as [b Hb].
  { destruct x as [z|u|u|id sz c]; cbn [field_as_bytes field_count_bytes] in *; try eauto;
    pose proof (len_unicode_payload u) as L; destruct u; cbn [unicode_as_bytes unicode_count_bytes] in *;
    match goal with |- context [?a <? ?b] => replace (a <? b) with true by lia end; eauto. }
  rewrite Hb. cbn [rbind].
  destruct (field_as_bytes_ok x b) as [(E & L & B)|(id & sz & c & -> & -> & L)]; try easy.
  - subst b. rewrite len_app, L, IH2. repeat split. constructor; auto.
  - cbn [field_wt field_id field_payload field_count_bytes] in *.
    match goal with H : _ /\ _ |- _ => destruct H as (?&?&?&?&->) end.
    rewrite <- extra_eq, len_app, len_extra, IH2. repeat split; constructor; auto; cbn [field_payload]; lia.
Qed.

(** The serialiser itself never panics when the counted size fits in 16 bits. *)
Lemma fields_as_bytes_no_panic l : fields_count_bytes l < 65536 -> exists b, fields_as_bytes l = Ok b.
Proof.
  induction l as [|x l IH]; intro Hc; [now exists []|]. cbn [fields_count_bytes] in Hc.
  destruct IH as [b' Hb']; [lia|]. cbn [fields_as_bytes]. rewrite Hb'.
  destruct x as [z|u|u|id sz c]; cbn [field_as_bytes field_count_bytes] in *; try (cbn [rbind]; eauto);
    destruct u; cbn [unicode_as_bytes unicode_count_bytes] in *;
    match goal with |- context [?a <? ?b] => replace (a <? b) with true by lia end; cbn [rbind]; eauto.
Qed.

Lemma len_field_bytes x b : field_size_ok x -> field_as_bytes x = Ok b -> len b = field_count_bytes x.
Proof.
  destruct x as [z|u|u|id sz c]; cbn [field_as_bytes field_size_ok field_count_bytes]; intros Hs H.
  - okinv H; subst b. unfold zip64_as_bytes, zip64_count_bytes. fold (zip64_payload z).
    rewrite !len_app, !len_to_le, len_zip64_payload by easy. lia.
  - destruct u; cbn [unicode_as_bytes unicode_count_bytes] in *;
      (match goal with H : context [?a <? ?b] |- _ => destruct (a <? b); okinv H; subst end);
      rewrite !len_app, !len_to_le; [change (len [x01]) with 1|change (len [version]) with 1]; lia.
  - destruct u; cbn [unicode_as_bytes unicode_count_bytes] in *;
      (match goal with H : context [?a <? ?b] |- _ => destruct (a <? b); okinv H; subst end);
      rewrite !len_app, !len_to_le; [change (len [x01]) with 1|change (len [version]) with 1]; lia.
  - okinv H; subst. unfold unknown_as_bytes. rewrite !len_app, !len_to_le. lia.
Qed.
Lemma len_fields_bytes l b : Forall field_size_ok l -> fields_as_bytes l = Ok b -> len b = fields_count_bytes l.
Proof.
  revert b; induction l as [|x l IH]; intros b Hs H; [now inversion H|].
  inversion Hs; subst. cbn [fields_as_bytes] in H.
  apply rbind_ok in H as (a & Ha & H). apply rbind_ok in H as (c & Hc & H). inversion H; subst.
  cbn [fields_count_bytes]. rewrite len_app, (IH c), (len_field_bytes x a) by easy. reflexivity.
Qed.

(** ** Parsing as recursion over the remaining bytes *)
Fixpoint psuf (cfg : config) (fuel : nat) (d : bytes) (usize csize : N) : res (list extra_field) :=
  match fuel with
  | O => Panic PFuel
  | S f =>
    if 4 <? len d then
      let id := from_le (slice 0 2 d) in
      let sz := from_le (slice 2 4 d) in
      if len d <? 4 + sz then
        if overflow_checks cfg then Panic POverflow
        else let? b := usub cfg (len d) 8 in let? c := usub cfg b sz in Err (InvalidExtraFieldHeader sz c)
      else
        let? x := extra_field_from_bytes id sz (slice 4 (4 + sz) d) usize csize in
        let? r := psuf cfg f (drop (4 + sz) d) usize csize in Ok (x :: r)
    else Ok []
  end.

Lemma parse_loop_psuf cfg fuel data cur u c : cur <= len data ->
  parse_loop cfg fuel data cur u c = psuf cfg fuel (drop cur data) u c.
Proof.
  revert cur; induction fuel as [|f IH]; intros cur Hc; [reflexivity|].
  cbn [parse_loop psuf]. rewrite len_drop.
  replace (4 <? len data - cur) with (cur + 4 <? len data) by lia.
  destruct (cur + 4 <? len data) eqn:E; [|reflexivity].
  rewrite !index_slice by lia. cbn [rbind].
  replace (slice cur (cur + 2) data) with (slice 0 2 (drop cur data))
    by (rewrite <- slice_drop, N.add_0_r; reflexivity).
  rewrite !slice_drop.
  set (sz := from_le (slice 2 4 (drop cur data))). set (id := from_le (slice 0 2 (drop cur data))).
  replace (len data <? cur + 4 + sz) with (len data - cur <? 4 + sz) by lia.
  destruct (len data - cur <? 4 + sz) eqn:E2.
  - unfold usub. replace (cur <=? len data) with true by lia. cbn [rbind].
    destruct (overflow_checks cfg) eqn:EO; [|reflexivity].
    destruct (8 <=? len data - cur) eqn:E3; [|reflexivity]. cbn [rbind].
    replace (sz <=? len data - cur - 8) with false by lia. reflexivity.
  - rewrite index_slice by lia. cbn [rbind].
    replace (slice (cur + 4) (cur + 4 + sz) data) with (slice 4 (4 + sz) (drop cur data))
      by (rewrite <- slice_drop; f_equal; lia).
    rewrite IH by lia. rewrite drop_drop. do 2 f_equal. now rewrite N.add_assoc.
Qed.

Lemma psuf_fuel cfg u c f1 : forall d f2, (length d < f1)%nat -> (length d < f2)%nat ->
  psuf cfg f1 d u c = psuf cfg f2 d u c.
Proof.
  induction f1 as [|f1 IH]; intros d f2 H1 H2; [lia|]. destruct f2 as [|f2]; [lia|].
  cbn [psuf]. destruct (4 <? len d) eqn:E; [|reflexivity].
  destruct (len d <? 4 + _) eqn:E2; [reflexivity|].
  destruct extra_field_from_bytes; cbn [rbind]; try reflexivity.
  rewrite (IH _ f2); [reflexivity| |]; rewrite drop_skipn, skipn_length; unfold len in *; lia.
Qed.

Definition parse_d cfg d u c := psuf cfg (S (length d)) d u c.
Lemma parse_extra_fields_d cfg d u c : parse_extra_fields cfg d u c = parse_d cfg d u c.
Proof. unfold parse_extra_fields, parse_d. rewrite parse_loop_psuf by lia. now rewrite drop_0. Qed.

(** one field in front *)
Lemma parse_d_step cfg id p rest u c : id < 65536 -> len p < 65536 -> p ++ rest <> [] ->
  parse_d cfg (extra id p ++ rest) u c =
  (let? x := extra_field_from_bytes id (len p) p u c in let? r := parse_d cfg rest u c in Ok (x :: r)).
Proof.
  intros Hid Hp Hne. unfold parse_d. cbn [psuf].
  assert (0 < len (p ++ rest)) by (destruct (p ++ rest); [easy|rewrite len_cons; lia]).
  rewrite len_app in H. rewrite len_app, len_extra.
  replace (4 <? 4 + len p + len rest) with true by lia.
  rewrite extra_eq, <- !app_assoc.
  replace (slice 0 2 (to_le 2 id ++ to_le 2 (len p) ++ p ++ rest)) with (to_le 2 id)
    by (symmetry; apply (slice_app3 0 2 []); reflexivity).
  replace (slice 2 4 (to_le 2 id ++ to_le 2 (len p) ++ p ++ rest)) with (to_le 2 (len p))
    by (symmetry; apply slice_app3; reflexivity).
  rewrite !from_to_le2 by easy.
  replace (4 + len p + len rest <? 4 + len p) with false by lia.
  replace (slice 4 (4 + len p) (to_le 2 id ++ to_le 2 (len p) ++ p ++ rest)) with p.
  2:{ symmetry. rewrite (app_assoc (to_le 2 id)). apply slice_app3; [reflexivity|lia]. }
  replace (drop (4 + len p) (to_le 2 id ++ to_le 2 (len p) ++ p ++ rest)) with rest.
  2:{ symmetry. rewrite (app_assoc (to_le 2 id)), (app_assoc _ p). apply drop_app_exact.
      rewrite !len_app, !len_to_le. lia. }
  destruct extra_field_from_bytes; cbn [rbind]; try reflexivity.
  rewrite (psuf_fuel _ _ _ _ rest (S (length rest))); [reflexivity| |lia].
  rewrite !app_length, !to_le_length. lia.
Qed.

Lemma parse_d_short cfg d u c : len d <= 4 -> parse_d cfg d u c = Ok [].
Proof. intro H. unfold parse_d. cbn [psuf]. now replace (4 <? len d) with false by lia. Qed.

(** ** Decoding a payload *)
Definition zip64_consistent (usize csize : N) (z : zip64_field) : Prop :=
  (zf_uncompressed z <> None <-> usize = NON_ZIP64_MAX_SIZE) /\
  (zf_compressed z <> None <-> csize = NON_ZIP64_MAX_SIZE).

Lemma opt_le_some k v : opt_le k (fun x => x) (Some v) = to_le k v. Proof. reflexivity. Qed.

Lemma zip64_payload_roundtrip usize csize z : zip64_wt z -> zip64_consistent usize csize z ->
  zip64_from_bytes (zip64_payload z) usize csize = z.
Proof.
  intros (W1 & W2 & W3 & W4) (C1 & C2).
  assert (U : usize =? NON_ZIP64_MAX_SIZE = match zf_uncompressed z with Some _ => true | None => false end).
  { destruct (zf_uncompressed z).
    - apply N.eqb_eq. now apply C1.
    - apply N.eqb_neq. intro E. now apply C1 in E. }
  assert (C : csize =? NON_ZIP64_MAX_SIZE = match zf_compressed z with Some _ => true | None => false end).
  { destruct (zf_compressed z).
    - apply N.eqb_eq. now apply C2.
    - apply N.eqb_neq. intro E. now apply C2 in E. }
  unfold zip64_from_bytes, zip64_payload. rewrite U, C. clear - W1 W2 W3 W4.
  destruct z as [[u|] [c|] [o|] [d|]];
  cbn [zf_uncompressed zf_compressed zf_offset zf_disk opt_lt opt_le] in *;
  rewrite ?app_nil_l, ?app_nil_r, ?len_app, ?len_to_le, ?len_nil; cbn [andb N.of_nat Pos.of_succ_nat Pos.succ];
  repeat (first
    [ match goal with |- context [?a <=? ?b] =>
        let v := eval vm_compute in (a <=? b) in change (a <=? b) with v end
    | match goal with |- context [slice ?a ?b ?l] =>
        let v := eval cbv [slice N.sub N.add take drop app to_le N.eqb Pos.eqb N.pred Pos.pred_N Pos.pred_double Pos.add Pos.succ Pos.sub_mask Pos.sub Pos.succ_double_mask Pos.double_mask Pos.double_pred_mask] in (slice a b l) in change (slice a b l) with v end ]; cbv beta iota zeta);
  rewrite ?le8, ?le4 by assumption; try reflexivity.
Qed.

Lemma unicode_payload_roundtrip err u : unicode_wt u ->
  unicode_from_bytes err (len (unicode_payload u)) (unicode_payload u) = Ok u.
Proof.
  destruct u as [crc s|v d]; cbn [unicode_wt unicode_payload]; intro W.
  - set (p := [x01] ++ to_le 4 crc ++ s).
    assert (L : len p = 5 + len s) by (unfold p; rewrite !len_app, len_to_le; change (len [x01]) with 1; lia).
    unfold p at 2. cbn [app unicode_from_bytes]. change (b2n x01 =? 1) with true. cbn match.
    change (x01 :: to_le 4 crc ++ s) with p. replace (len p <? 5) with false by lia.
    rewrite !index_slice by lia. cbn [rbind].
    unfold p. rewrite slice_app3 by reflexivity.
    rewrite app_assoc, slice_app2.
    + rewrite from_to_le4 by easy. reflexivity.
    + reflexivity.
    + rewrite !len_app, len_to_le. change (len [x01]) with 1. lia.
  - cbn [app unicode_from_bytes]. replace (b2n v =? 1) with false by lia.
    rewrite index_slice; [|rewrite len_cons; lia|lia]. cbn [rbind].
    change (v :: d) with ([v] ++ d). rewrite slice_app2; [reflexivity|reflexivity|].
    rewrite len_app. change (len [v]) with 1. lia.
Qed.

Definition field_consistent (usize csize : N) (x : extra_field) : Prop :=
  match x with XZip64 z => zip64_consistent usize csize z | _ => True end.

Lemma field_decode usize csize x : field_wt x -> field_consistent usize csize x ->
  extra_field_from_bytes (field_id x) (len (field_payload x)) (field_payload x) usize csize = Ok x.
Proof.
  intros W C. unfold extra_field_from_bytes. destruct x as [z|u|u|id sz c]; cbn [field_id field_payload] in *.
  - cbn [N.eqb]. rewrite N.eqb_refl. now rewrite zip64_payload_roundtrip.
  - change (ID_UCOMMENT =? ID_ZIP64) with false. change (ID_UCOMMENT =? ID_UCOMMENT) with true. cbn match.
    now rewrite unicode_payload_roundtrip.
  - change (ID_UPATH =? ID_ZIP64) with false. change (ID_UPATH =? ID_UCOMMENT) with false.
    change (ID_UPATH =? ID_UPATH) with true. cbn match. now rewrite unicode_payload_roundtrip.
  - destruct W as (_&A&B&D&->). apply N.eqb_neq in A, B, D. now rewrite A, B, D.
Qed.

(** the last field must have a payload, otherwise the parser stops before it *)
Definition last_nonempty (l : list extra_field) : Prop :=
  match rev l with x :: _ => field_payload x <> [] | [] => True end.

Lemma last_nonempty_cons x l : last_nonempty (x :: l) ->
  last_nonempty l /\ (l = [] -> field_payload x <> []).
Proof.
  unfold last_nonempty. cbn [rev]. destruct l as [|y l].
  - cbn. auto.
  - cbn [rev]. split; [|discriminate]. destruct (rev l ++ [y]) eqn:E; [now destruct (rev l)|].
    cbn [app] in H. exact H.
Qed.

Lemma field_id_bound x : field_wt x -> field_id x < 65536.
Proof. destruct x; cbn [field_wt field_id]; intros; unfold ID_ZIP64, ID_UCOMMENT, ID_UPATH; lia. Qed.

Lemma fields_image_nonnil x l : fields_image (x :: l) <> [].
Proof.
  unfold fields_image. cbn [map concat]. intro E. apply (f_equal len) in E.
  rewrite len_app, len_extra in E. change (len (@nil byte)) with 0 in E. lia.
Qed.

(** Reading back a block of fields, followed by fewer than five stray bytes. *)
Lemma parse_fields_image cfg usize csize l :
  Forall field_wt l -> Forall (field_consistent usize csize) l -> last_nonempty l ->
  Forall (fun x => len (field_payload x) < 65536) l ->
  parse_extra_fields cfg (fields_image l) usize csize = Ok l.
Proof.
  rewrite parse_extra_fields_d.
  induction l as [|x l IH]; intros W C Hl B; [reflexivity|].
  inversion W; inversion C; inversion B; subst. apply last_nonempty_cons in Hl as [Hl Hx].
  unfold fields_image. cbn [map concat]. fold (fields_image l). rewrite parse_d_step.
  - rewrite field_decode by easy. cbn [rbind]. now rewrite IH.
  - now apply field_id_bound.
  - easy.
  - destruct l; [rewrite app_nil_r; auto|].
    intro E. apply app_eq_nil in E as [_ E]. now apply fields_image_nonnil in E.
Qed.

(** In general a last field without payload is not reported. *)
Definition heard_fields (l : list extra_field) : list extra_field :=
  match rev l with x :: r => match field_payload x with [] => rev r | _ => l end | [] => [] end.
Lemma heard_fields_cons x y l : heard_fields (x :: y :: l) = x :: heard_fields (y :: l).
Proof.
  unfold heard_fields. cbn [rev]. destruct (rev l) as [|z r]; cbn [app].
  - destruct (field_payload y); reflexivity.
  - rewrite <- !app_assoc. destruct (field_payload z); [|reflexivity]. rewrite !rev_app_distr. reflexivity.
Qed.
Lemma parse_fields_image_any cfg usize csize l :
  Forall field_wt l -> Forall (field_consistent usize csize) l ->
  Forall (fun x => len (field_payload x) < 65536) l ->
  parse_extra_fields cfg (fields_image l) usize csize = Ok (heard_fields l).
Proof.
  intros W C B. destruct (rev l) as [|x r] eqn:E.
  { apply (f_equal (@rev _)) in E. rewrite rev_involutive in E. subst l. reflexivity. }
  destruct (field_payload x) as [|b p] eqn:Ep.
  2:{ assert (L : last_nonempty l) by (unfold last_nonempty; rewrite E, Ep; discriminate).
      rewrite parse_fields_image by easy. unfold heard_fields. now rewrite E, Ep. }
  rewrite parse_extra_fields_d. revert x r E Ep W C B.
  induction l as [|y l IH]; intros x r E Ep W C B; [discriminate|].
  inversion W; inversion C; inversion B; subst.
  destruct l as [|z l].
  - cbn in E. injection E as <- <-. unfold heard_fields. cbn [rev app]. rewrite Ep.
    unfold fields_image. cbn [map concat]. rewrite app_nil_r, Ep. apply parse_d_short. now rewrite len_extra.
  - rewrite heard_fields_cons. unfold fields_image. cbn [map concat].
    change (extra (field_id z) (field_payload z) ++ concat (map (fun x => extra (field_id x) (field_payload x)) l)) with (fields_image (z :: l)).
    rewrite parse_d_step; [|now apply field_id_bound|easy|].
    + rewrite field_decode by easy. cbn [rbind].
      destruct (rev (z :: l)) as [|x' r'] eqn:E'; [cbn [rev] in E'; now destruct (rev l)|].
      assert (x' = x). { change (rev (y :: z :: l)) with (rev (z :: l) ++ [y]) in E. rewrite E' in E. now injection E. }
      subst x'. now rewrite (IH x r').
    + intro E0. apply app_eq_nil in E0 as [_ E0]. now apply fields_image_nonnil in E0.
Qed.

(** ** What parsing can do on arbitrary bytes *)
Lemma unicode_from_bytes_total err d : d <> [] ->
  (exists u, unicode_from_bytes err (len d) d = Ok u /\ unicode_wt u /\ unicode_payload u = d)
  \/ unicode_from_bytes err (len d) d = Err err.
Proof.
  destruct d as [|v d]; [easy|]. intros _. unfold unicode_from_bytes.
  destruct (b2n v =? 1) eqn:E.
  - destruct (len (v :: d) <? 5) eqn:E5; [now right|]. left.
    rewrite !index_slice by lia. cbn [rbind]. eexists. split; [reflexivity|]. split.
    + cbn [unicode_wt]. apply (from_le_lt 4). pose proof (len_slice 1 5 (v :: d)). unfold len in *. lia.
    + cbn [unicode_payload]. rewrite len_cons in E5.
      destruct d as [|b1 [|b2 [|b3 [|b4 d]]]]; unfold len in E5; cbn [length] in E5; try lia.
      change (slice 1 5 (v :: b1 :: b2 :: b3 :: b4 :: d)) with (slice 1 5 ([v] ++ [b1; b2; b3; b4] ++ d)).
      rewrite slice_app3 by reflexivity. rewrite to_from4.
      change (v :: b1 :: b2 :: b3 :: b4 :: d) with ([v; b1; b2; b3; b4] ++ d).
      rewrite slice_app2; [|reflexivity|rewrite len_app; change (len [v; b1; b2; b3; b4]) with 5; lia].
      cbn [app]. f_equal. apply b2n_inj. apply N.eqb_eq in E. now rewrite E.
  - left. rewrite index_slice; [|rewrite len_cons; lia|lia]. cbn [rbind]. eexists. split; [reflexivity|].
    cbn [unicode_wt unicode_payload]. split; [lia|].
    change (v :: d) with ([v] ++ d). rewrite slice_app2; [reflexivity|reflexivity|].
    rewrite len_app. change (len [v]) with 1. lia.
Qed.

Lemma opt_lt_slice b k a e d : b = 256 ^ N.of_nat k -> (N.to_nat (e - a) <= k)%nat -> from_le (slice a e d) < b.
Proof.
  intros -> H. apply from_le_lt. unfold slice. rewrite take_firstn, firstn_length. lia.
Qed.

Lemma zip64_from_bytes_wt d u c : zip64_wt (zip64_from_bytes d u c).
Proof.
  unfold zip64_from_bytes.
  destruct ((u =? NON_ZIP64_MAX_SIZE) && (0 + 8 <=? len d));
  match goal with |- context [(c =? NON_ZIP64_MAX_SIZE) && ?b] => destruct ((c =? NON_ZIP64_MAX_SIZE) && b) end;
  repeat match goal with |- context [if ?b then _ else _] => destruct b end;
  repeat split; cbn [zf_uncompressed zf_compressed zf_offset zf_disk opt_lt]; try exact I;
  first [apply (opt_lt_slice _ 8); [reflexivity|apply Nat.leb_le; reflexivity] | apply (opt_lt_slice _ 4); [reflexivity|apply Nat.leb_le; reflexivity]].
Qed.

Lemma extra_field_from_bytes_total id p u c :
  (exists x, extra_field_from_bytes id (len p) p u c = Ok x /\
             (id < 65536 -> field_wt x) /\ field_id x = id /\ (id <> ID_ZIP64 -> field_payload x = p))
  \/ extra_field_from_bytes id (len p) p u c = Err InfoZipUnicodeCommentFieldIncomplete
  \/ extra_field_from_bytes id (len p) p u c = Err InfoZipUnicodePathFieldIncomplete.
Proof.
  unfold extra_field_from_bytes.
  destruct (id =? ID_ZIP64) eqn:E1.
  { left. eexists. repeat split; try apply zip64_from_bytes_wt.
    - cbn [field_id]. lia.
    - lia. }
  destruct (id =? ID_UCOMMENT) eqn:E2.
  { destruct p as [|b p].
    - right; left. reflexivity.
    - destruct (unicode_from_bytes_total InfoZipUnicodeCommentFieldIncomplete (b :: p)) as [(x & -> & W & P)| ->]; [easy| |now right; left].
      left. eexists. cbn [rbind field_wt field_id field_payload]. repeat split; try easy. cbn [field_id]. lia. }
  destruct (id =? ID_UPATH) eqn:E3.
  { destruct p as [|b p].
    - right; right. reflexivity.
    - destruct (unicode_from_bytes_total InfoZipUnicodePathFieldIncomplete (b :: p)) as [(x & -> & W & P)| ->]; [easy| |now right; right].
      left. eexists. cbn [rbind field_wt field_id field_payload]. repeat split; try easy. cbn [field_id]. lia. }
  left. eexists. split; [reflexivity|]. cbn [field_wt field_id field_payload]. repeat split; lia.
Qed.

(** A block ends either in at most four stray bytes, or in a field that claims more bytes than are left. *)
Inductive block : bytes -> list (N * bytes) -> bool -> Prop :=
| block_end d : len d <= 4 -> block d [] true
| block_overrun d : 4 < len d -> len d < 4 + from_le (slice 2 4 d) -> block d [] false
| block_field id p rest l ok : id < 65536 -> len p < 65536 -> p ++ rest <> [] -> block rest l ok ->
    block (extra id p ++ rest) ((id, p) :: l) ok.

Lemma block_total d : exists l ok, block d l ok.
Proof.
  remember (length d) as n eqn:Hn. revert d Hn.
  induction n as [n IH] using lt_wf_ind. intros d Hn.
  destruct (N.le_gt_cases (len d) 4) as [H4|H4]; [do 2 eexists; now apply block_end|].
  destruct (N.lt_ge_cases (len d) (4 + from_le (slice 2 4 d))) as [Ho|Ho]; [do 2 eexists; now apply block_overrun|].
  destruct d as [|h1 [|h2 [|h3 [|h4 d]]]]; unfold len in H4; cbn [length] in H4; try lia.
  replace (slice 2 4 (h1 :: h2 :: h3 :: h4 :: d)) with [h3; h4] in Ho
    by (symmetry; apply (slice_app3 2 4 [h1; h2] [h3; h4] d); reflexivity).
  set (sz := from_le [h3; h4]) in *.
  destruct (split_at sz d) as (p & rest & -> & Lp).
  { unfold len in *. cbn [length] in Ho. lia. }
  destruct (IH (length rest)) with (d := rest) as (l & ok & Hb); [|reflexivity|].
  { subst n. cbn [length]. rewrite app_length. lia. }
  exists ((from_le [h1; h2], p) :: l), ok.
  replace (h1 :: h2 :: h3 :: h4 :: p ++ rest) with (extra (from_le [h1; h2]) p ++ rest).
  - apply block_field; try easy.
    + apply from_le2_bound.
    + rewrite Lp. apply from_le2_bound.
    + intro E. rewrite E in H4. cbn in H4. lia.
  - rewrite extra_eq, to_from2, Lp. unfold sz. rewrite to_from2. reflexivity.
Qed.

(** Parsing decodes the fields one by one; the first field that cannot be decoded, or an
    overrunning field, decides the outcome. *)
Fixpoint decode_all (cfg : config) (u c : N) (l : list (N * bytes)) (last : res (list extra_field)) : res (list extra_field) :=
  match l with
  | [] => last
  | (id, p) :: r =>
    let? x := extra_field_from_bytes id (len p) p u c in
    let? xs := decode_all cfg u c r last in Ok (x :: xs)
  end.

Lemma parse_block cfg d u c l ok : block d l ok ->
  exists last, parse_extra_fields cfg d u c = decode_all cfg u c l last /\
    (ok = true -> last = Ok []) /\
    (ok = false -> overflow_checks cfg = true -> last = Panic POverflow) /\
    (ok = false -> overflow_checks cfg = false -> exists sz r, last = Err (InvalidExtraFieldHeader sz r)).
Proof.
  rewrite parse_extra_fields_d. induction 1 as [d H|d H4 H|id p rest l ok Hid Hp Hne Hb IH].
  - exists (Ok []). rewrite parse_d_short by easy. repeat split; easy.
  - unfold parse_d. cbn [psuf]. replace (4 <? len d) with true by lia.
    replace (len d <? 4 + from_le (slice 2 4 d)) with true by lia.
    eexists. split; [reflexivity|]. repeat split; try easy.
    + now intros _ ->.
    + intros _ E0. rewrite E0. unfold usub. rewrite E0.
      destruct (8 <=? len d); cbn [rbind];
      match goal with |- context [if ?b then _ else _] => destruct b end; cbn [rbind]; eauto.
  - destruct IH as (last & E & H1 & H2 & H3). exists last. split; [|auto].
    rewrite parse_d_step, E by easy. reflexivity.
Qed.

Lemma decode_all_no_panic cfg u c l last : is_panic last = false -> is_panic (decode_all cfg u c l last) = false.
Proof.
  intro H. induction l as [|[id p] l IH]; [exact H|]. cbn [decode_all].
  destruct (extra_field_from_bytes_total id p u c) as [(x & -> & _)|[-> | ->]]; try reflexivity.
  cbn [rbind]. now destruct (decode_all cfg u c l last).
Qed.
Lemma decode_all_panic_last cfg u c l last :
  is_panic (decode_all cfg u c l last) = true -> is_panic last = true.
Proof.
  destruct (is_panic last) eqn:E; [easy|]. now rewrite decode_all_no_panic.
Qed.

Lemma decode_all_ok cfg u c l last xs : decode_all cfg u c l last = Ok xs ->
  exists ys zs, xs = ys ++ zs /\ last = Ok zs /\
    Forall2 (fun t x => extra_field_from_bytes (fst t) (len (snd t)) (snd t) u c = Ok x) l ys.
Proof.
  revert xs; induction l as [|[id p] l IH]; intros xs H; cbn [decode_all] in H.
  - exists [], xs. auto.
  - apply rbind_ok in H as (x & Hx & H). apply rbind_ok in H as (r & Hr & H). okinv H. subst.
    destruct (IH r Hr) as (ys & zs & -> & Hl & HF). exists (x :: ys), zs. split; [reflexivity|].
    split; [easy|]. now constructor.
Qed.

Lemma parse_ok_wt cfg d u c l : parse_extra_fields cfg d u c = Ok l -> Forall field_wt l.
Proof.
  intro H. destruct (block_total d) as (t & ok & Hb).
  pose proof (parse_block cfg d u c t ok Hb) as (last & E & H1 & H2 & H3).
  rewrite H in E. symmetry in E. apply decode_all_ok in E as (ys & zs & -> & Hl & HF).
  assert (zs = []).
  { destruct ok.
    - rewrite H1 in Hl by easy. now inversion Hl.
    - destruct (overflow_checks cfg) eqn:EO.
      + rewrite H2 in Hl by easy. discriminate.
      + destruct H3 as (?&?&H3); try easy. rewrite H3 in Hl. discriminate. }
  subst. rewrite app_nil_r. clear - Hb HF. revert ys HF. induction Hb; intros ys HF; inversion HF; subst; constructor.
  - destruct (extra_field_from_bytes_total id p u c) as [(x & E & W & _)|[E|E]]; cbn [fst snd] in *.
    + rewrite E in H4. inversion H4; subst. auto.
    + rewrite E in H4. discriminate.
    + rewrite E in H4. discriminate.
  - auto.
Qed.
