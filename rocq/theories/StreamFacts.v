(** Writing an entry as a stream: opening, feeding, closing. *)
From Verif Require Import Base BaseFacts Crc32 CrcFacts ZString ZDate Headers ExtraField ExtraFieldFacts Entry IO Reader EntryReader Writer SpecWrite WriterFacts WholeFacts.
Arguments N.add : simpl never.
Arguments N.sub : simpl never.
Arguments N.min : simpl never.

(** ** entry_stream.rs 107-190, in closed form *)
Definition so_big (e : zentry) : bool := over (en_compressed_size e) || over (en_uncompressed_size e).
Definition so_e2 (fn : bool) (e : zentry) : zentry :=
  if fn then e
  else set_extra e (en_extra e ++ [XZip64 {| zf_uncompressed := Some (en_uncompressed_size e);
                                             zf_compressed := Some (en_compressed_size e);
                                             zf_offset := None; zf_disk := None |}]).
Definition so_e3 (fn : bool) (e : zentry) : zentry := add_unicode_fields (so_e2 fn e).
Definition so_lfh (fn : bool) (e : zentry) : lfh :=
  make_lfh true (so_e3 fn e) (if fn then as_u32 (en_compressed_size e) else NON_ZIP64_MAX_SIZE)
    (if fn then as_u32 (en_uncompressed_size e) else NON_ZIP64_MAX_SIZE) (utf8_flag (so_e2 fn e)).
Definition so_refused (fn : bool) (e : zentry) : option zip_error :=
  let e3 := so_e3 fn e in
  if negb (fields_count_bytes (en_extra e3) <? 65536) then Some ExtraFieldTooLarge
  else if negb (len (basic_bytes (en_filename e3)) <? 65536) then Some FileNameTooLarge
  else None.
Definition so_world (w : world) : world := if w_force_no w then w else set_zip64 w true.

Lemma bind_assoc {A B C} (m : SM world A) (f : A -> SM world B) (g : B -> SM world C) w :
  bind (bind m f) g w = bind m (fun a => bind (f a) g) w.
Proof. unfold bind. destruct (m w) as [[a|e|p] w1]; reflexivity. Qed.

Lemma bind_ext {A B} (m : SM world A) (k k' : A -> SM world B) w :
  (forall a w1, k a w1 = k' a w1) -> bind m k w = bind m k' w.
Proof. intro H. unfold bind. destruct (m w) as [[a|e|p] w1]; auto. Qed.

Lemma write_lfh_eq e w : write_lfh e w =
  let fn := w_force_no w in
  if fn && so_big e then (Err (Zip64Needed LargeFile), w)
  else match so_refused fn e with
  | Some x => (Err x, so_world w)
  | None => (puts (head_writes (so_lfh fn e) (so_e3 fn e)) ;;; ret (so_e3 fn e, so_lfh fn e)) (so_world w)
  end.
Proof.
  cbv zeta. unfold write_lfh. unfold bind at 1. unfold get at 1. cbv beta iota.
  fold (over (en_compressed_size e)) (over (en_uncompressed_size e)). fold (so_big e).
  assert (TAIL : forall fn e2 w1 csz usz, e2 = so_e2 fn e ->
    csz = (if fn then as_u32 (en_compressed_size e) else NON_ZIP64_MAX_SIZE) ->
    usz = (if fn then as_u32 (en_uncompressed_size e) else NON_ZIP64_MAX_SIZE) ->
    (let flag := utf8_flag e2 in
     let e := add_unicode_fields e2 in
     let filename_basic := basic_bytes (en_filename e) in
     xlen <- lift (try_u16 (fields_count_bytes (en_extra e)) ExtraFieldTooLarge) ;;
     nlen <- lift (try_u16 (len filename_basic) FileNameTooLarge) ;;
     let h :=
       {| l_version := as_needed_to_extract e;
          l_flags := {| gp_encrypted := false; gp_data_descriptor := true; gp_filename_unicode := flag |};
          l_compression := compression_to (en_compression e);
          l_mod_time := zd_time (en_date e); l_mod_date := zd_date (en_date e); l_crc := en_crc32 e;
          l_compressed_size := csz; l_uncompressed_size := usz;
          l_file_name_length := nlen; l_extra_field_length := xlen |} in
     write_all (to_le 4 LFH_SIGNATURE) ;;;
     write_all (lfh_as_slice h) ;;;
     write_all filename_basic ;;;
     xb <- lift (fields_as_bytes (en_extra e)) ;;
     write_all xb ;;;
     ret (e, h)) w1 =
    match so_refused fn e with
    | Some x => (Err x, w1)
    | None => (puts (head_writes (so_lfh fn e) (so_e3 fn e)) ;;; ret (so_e3 fn e, so_lfh fn e)) w1
    end).
  { intros fn e2 w1 csz usz -> -> ->. cbv zeta. fold (so_e3 fn e). unfold so_refused, so_lfh, make_lfh, flags_of. cbv zeta.
    set (e3 := so_e3 fn e).
    unfold try_u16 at 1. destruct (N.ltb_spec (fields_count_bytes (en_extra e3)) 65536) as [L1|L1]; [|reflexivity].
    cbn [negb]. rewrite lift_ok.
    unfold try_u16 at 1. destruct (len (basic_bytes (en_filename e3)) <? 65536); [|reflexivity].
    cbn [negb]. rewrite lift_ok.
    unfold head_writes. cbn [puts].
    destruct (fields_as_bytes_no_panic (en_extra e3) L1) as [xb Hxb].
    unfold fields_bytes. rewrite Hxb.
    unfold bind.
    match goal with |- context [write_all ?a w1] => destruct (write_all a w1) as [[r1|x1|p1] w2] end; [|reflexivity|reflexivity].
    match goal with |- context [write_all ?a w2] => destruct (write_all a w2) as [[r2|x2|p2] w3] end; [|reflexivity|reflexivity].
    match goal with |- context [write_all ?a w3] => destruct (write_all a w3) as [[r3|x3|p3] w4] end; [|reflexivity|reflexivity].
    unfold lift. cbv beta iota.
    match goal with |- context [write_all ?a w4] => destruct (write_all a w4) as [[r4|x4|p4] w5] end; reflexivity. }
  unfold so_world. destruct (w_force_no w) eqn:FN; cbn [negb andb].
  - destruct (so_big e) eqn:BG; [reflexivity|].
    unfold bind at 1. unfold ret at 1. cbv beta iota.
    refine (TAIL true e w _ _ _ _ _); reflexivity.
  - unfold bind at 1 2. unfold modify at 1. cbv beta iota. unfold ret at 1. cbv beta iota.
    refine (TAIL false _ (set_zip64 w true) _ _ _ _ _); reflexivity.
Qed.

Definition opened {cd} (pre fn : bool) (e : zentry) (off doff : N) (enc : option (est cd)) : stream_writer cd :=
  {| sw_entry := so_e3 fn e; sw_lfh := so_lfh fn e; sw_lfh_offset := off; sw_data_offset := doff;
     sw_hasher := hasher_new; sw_force_no := fn; sw_pre := pre; sw_uoffset := 0; sw_enc := enc |}.
Definition new_enc (cd : codec) (pre : bool) (c : compression) : res (option (est cd)) :=
  if pre then Ok None
  else match c with
       | Stored => Ok None
       | Deflate64 => Panic PUnsupported
       | c => Ok (Some (enc_init cd c LDefault))
       end.
Definition head_bytes (h : lfh) (e : zentry) : bytes := concat (head_writes h e).

Lemma so_compression fn e : en_compression (so_e3 fn e) = en_compression e.
Proof. unfold so_e3, so_e2, add_unicode_fields. destruct fn, (utf8_flag _); reflexivity. Qed.

(** what opening does *)
Lemma stream_open_spec cd pre e w :
  let fn := w_force_no w in
  let '(r, w') := stream_open cd pre e w in
  if fn && so_big e then r = Err (Zip64Needed LargeFile) /\ w' = w
  else match so_refused fn e with
  | Some x => r = Err x /\ w' = so_world w
  | None =>
    let head := head_bytes (so_lfh fn e) (so_e3 fn e) in
    exists u, match r with
    | Ok sw => moved (so_world w) w' head u 0 /\ steady u /\
        exists enc, new_enc cd pre (en_compression e) = Ok enc /\
          sw = opened pre fn e (w_offset w) (w_offset w + len head) enc
    | Err x => exists io p, x = UpstreamReadError io /\ prefix p head /\ moved (so_world w) w' p u 0 /\ faulty u io
    | Panic x => x = PUnsupported /\ pre = false /\ en_compression e = Deflate64 /\ moved (so_world w) w' head u 0
    end
  end.
Proof.
  cbv zeta. unfold stream_open. unfold bind at 1. unfold get at 1. cbv beta iota zeta.
  unfold bind at 1. rewrite write_lfh_eq. cbv zeta.
  destruct (w_force_no w && so_big e); [easy|].
  destruct (so_refused (w_force_no w) e) as [x|]; [easy|].
  unfold bind at 1. pose proof (puts_ok (head_writes (so_lfh (w_force_no w) e) (so_e3 (w_force_no w) e)) (so_world w)) as P.
  destruct (puts _ (so_world w)) as [[r|x|pp] w1]; unfold put_ok in P; cbn [fst snd] in P; destruct P as (u & P); [| |easy].
  - destruct P as (M & S). unfold ret at 1. cbv beta iota. unfold bind at 1. unfold get at 1. cbv beta iota.
    rewrite so_compression.
    match goal with |- context [lift ?x] => replace x with (new_enc cd pre (en_compression e))
      by (unfold new_enc; destruct pre, (en_compression e); reflexivity) end.
    assert (OF : w_offset w1 = w_offset w + len (head_bytes (so_lfh (w_force_no w) e) (so_e3 (w_force_no w) e))).
    { rewrite (moved_offset _ _ _ _ _ M). f_equal. unfold so_world. now destruct (w_force_no w). }
    assert (FN : w_force_no w1 = w_force_no w).
    { rewrite (moved_force _ _ _ _ _ M). unfold so_world. now destruct (w_force_no w) eqn:E. }
    unfold bind, lift. destruct (new_enc cd pre (en_compression e)) as [enc|x|p] eqn:NE; unfold ret; cbv beta iota.
    + exists u. split; [exact M|]. split; [exact S|]. exists enc. split; [easy|]. unfold opened. now rewrite OF, FN.
    + unfold new_enc in NE. destruct pre, (en_compression e); discriminate.
    + exists u. unfold new_enc in NE. destruct pre; [discriminate|]. destruct (en_compression e); try discriminate.
      injection NE as <-. auto.
  - destruct P as (io & p & -> & P & M & F). exists u, io, p. auto.
Qed.

(** ** Feeding *)

Fixpoint feed (cd : codec) (fuel : nat) (st : est cd) (buf : bytes) : bytes * est cd :=
  match fuel with
  | O => ([], st)
  | S f =>
    if len buf =? 0 then ([], st)
    else let '(n, out, st') := enc_write cd st buf in
         let '(o, st'') := feed cd f st' (drop n buf) in (out ++ o, st'')
  end.
Definition feed_op {cd} (enc : option (est cd)) (o : stream_op) : bytes * option (est cd) :=
  match enc, o with
  | None, SWriteAll b => (b, None)
  | None, SFlush => ([], None)
  | Some st, SWriteAll b => let '(o, st') := feed cd (S (length b)) st b in (o, Some st')
  | Some st, SFlush => let '(o, st') := enc_flush cd st in (o, Some st')
  end.
Fixpoint feed_ops {cd} (enc : option (est cd)) (l : list stream_op) : bytes * option (est cd) :=
  match l with
  | [] => ([], enc)
  | o :: r => let '(a, enc1) := feed_op enc o in let '(b, enc2) := feed_ops enc1 r in (a ++ b, enc2)
  end.
(** what the caller handed over *)
Definition op_content (o : stream_op) : bytes := match o with SWriteAll b => b | SFlush => [] end.
Definition content (l : list stream_op) : bytes := concat (map op_content l).
Definition op_flushes (o : stream_op) : N := match o with SWriteAll _ => 0 | SFlush => 1 end.

Definition fed {cd} (sw : stream_writer cd) (b : bytes) (enc : option (est cd)) : stream_writer cd :=
  sw_advance sw (hasher_update (sw_hasher sw) b) (sw_uoffset sw + len b) enc.
Lemma fed_fed {cd} (sw : stream_writer cd) a b e1 e2 : fed (fed sw a e1) b e2 = fed sw (a ++ b) e2.
Proof. unfold fed, sw_advance. cbn. rewrite hasher_update_app, len_app, N.add_assoc. reflexivity. Qed.
Lemma fed_nil {cd} (sw : stream_writer cd) : fed sw [] (sw_enc sw) = sw.
Proof. destruct sw. unfold fed, sw_advance. cbn. now rewrite N.add_0_r. Qed.

Definition fed_ok {cd} (sw : stream_writer cd) (out c : bytes) (enc : option (est cd)) (w : world)
  (x : res (stream_writer cd) * world) : Prop :=
  exists u, match fst x with
  | Ok sw' => exists f, moved w (snd x) out u f /\ sw' = fed sw c enc
  | Err e => exists io p f, e = UpstreamReadError io /\ prefix p out /\ moved w (snd x) p u f /\ faulty u io
  | Panic _ => False
  end.

Lemma feed_loop_ok {cd} : enc_takes cd -> forall fu buf (sw : stream_writer cd) st w, sw_enc sw = Some st -> (length buf < fu)%nat ->
  fed_ok sw (fst (feed cd fu st buf)) buf (Some (snd (feed cd fu st buf))) w (stream_write_all_loop fu sw buf w).
Proof.
  intro T. induction fu as [|fu IH]; intros buf sw st w He Hf; [lia|].
  cbn [stream_write_all_loop feed]. destruct (N.eqb_spec (len buf) 0) as [E|E].
  - apply len_0 in E. subst buf. cbn [fst snd]. exists []. unfold ret. cbn [fst snd]. exists 0. split; [apply moved_refl|].
    rewrite <- He. symmetry. apply fed_nil.
  - unfold stream_write. rewrite He. assert (NE : buf <> []) by (intros ->; now apply E).
    specialize (T st buf NE). destruct (enc_write cd st buf) as [[n out] st']. destruct T as [T1 T2].
    assert (L : (length (drop n buf) < fu)%nat).
    { pose proof (len_drop n buf). unfold len in *. lia. }
    set (sw1 := sw_advance sw (hasher_update (sw_hasher sw) (take n buf)) (sw_uoffset sw + n) (Some st')).
    assert (SW1 : sw1 = fed sw (take n buf) (Some st')).
    { unfold fed. rewrite len_take, N.min_l by lia. reflexivity. }
    assert (EN : sw_enc sw1 = Some st') by reflexivity.
    unfold bind. pose proof (write_all_spec out w) as W. destruct (write_all out w) as [[r|x|p] w1]; destruct W as (u & W); [| |easy].
    + destruct W as (M & S). unfold ret at 1. cbv beta iota. rewrite (proj2 (N.eqb_neq n 0)) by lia.
      specialize (IH (drop n buf) sw1 st' w1 EN L). destruct (feed cd fu st' (drop n buf)) as [o st2].
      cbn [fst snd] in *. unfold fed_ok in *. destruct (stream_write_all_loop fu sw1 (drop n buf) w1) as [[sw2|x|p] w2];
        cbn [fst snd] in *; destruct IH as (u2 & IH); [| |easy].
      * destruct IH as (f & M2 & ->). exists (u ++ u2), (0 + f). split; [eapply moved_trans; eassumption|].
        rewrite SW1, fed_fed, take_drop. reflexivity.
      * destruct IH as (io & p & f & -> & P & M2 & F). exists (u ++ u2), io, (out ++ p), (0 + f). split; [easy|].
        split; [now apply prefix_app_l|]. split; [eapply moved_trans; eassumption|now apply faulty_app_r].
    + destruct W as (io & p & -> & P & M & F). exists u. cbn [fst snd]. exists io, p, 0. split; [easy|]. split; [|auto].
      destruct (feed cd fu st' (drop n buf)) as [o st2]. cbn [fst]. destruct P as (q & ->). exists (q ++ o).
      now rewrite app_assoc.
Qed.

Lemma stream_write_all_ok {cd} (sw : stream_writer cd) b w : enc_takes cd ->
  let '(out, enc) := feed_op (sw_enc sw) (SWriteAll b) in
  fed_ok sw out b enc w (stream_write_all sw b w).
Proof.
  intro T. unfold feed_op. destruct (sw_enc sw) as [st|] eqn:E.
  - pose proof (feed_loop_ok T (S (length b)) b sw st w E) as H. destruct (feed cd (S (length b)) st b) as [o st'].
    apply H. lia.
  - rewrite stored_write_all by easy. unfold bind. pose proof (write_all_spec b w) as W.
    destruct (write_all b w) as [[r|x|p] w1]; destruct W as (u & W); [| |easy].
    + destruct W as (M & S). exists u. cbn. exists 0. split; [easy|reflexivity].
    + destruct W as (io & p & -> & P & M & F). exists u. cbn. exists io, p, 0. auto.
Qed.
Lemma stream_flush_ok {cd} (sw : stream_writer cd) w :
  let '(out, enc) := feed_op (sw_enc sw) SFlush in
  fed_ok sw out [] enc w (stream_flush sw w).
Proof.
  unfold feed_op, stream_flush. destruct (sw_enc sw) as [st|] eqn:E.
  - destruct (enc_flush cd st) as [out st']. unfold bind. pose proof (write_all_spec out w) as W.
    destruct (write_all out w) as [[r|x|p] w1]; destruct W as (u & W); [| |easy].
    + destruct W as (M & S). pose proof (ow_flush_spec w1) as F. destruct (ow_flush w1) as [[r'|x|p] w2]; destruct F as (u2 & F); [| |easy].
      * destruct F as (_ & M2 & _). exists (u ++ u2). cbn. exists (0 + 1). rewrite <- (app_nil_r out).
        split; [eapply moved_trans; eassumption|]. unfold fed. cbn [hasher_update fold_left]. now rewrite N.add_0_r.
      * destruct F as (io & -> & M2 & F). exists (u ++ u2). cbn. exists io, (out ++ []), (0 + 0). split; [easy|].
        split; [rewrite app_nil_r; apply prefix_refl|]. split; [eapply moved_trans; eassumption|now apply faulty_app_r].
    + destruct W as (io & p & -> & P & M & F). exists u. cbn. exists io, p, 0. auto.
  - unfold bind. pose proof (ow_flush_spec w) as F. destruct (ow_flush w) as [[r'|x|p] w2]; destruct F as (u2 & F); [| |easy].
    + destruct F as (_ & M2 & _). exists u2. cbn. exists 1. split; [easy|]. rewrite <- E. symmetry. apply fed_nil.
    + destruct F as (io & -> & M2 & F). exists u2. cbn. exists io, [], 0. split; [easy|]. split; [apply prefix_refl|auto].
Qed.

Lemma fed_ok_seq {cd} (sw : stream_writer cd) o1 c1 e1 o2 c2 e2 w m k :
  fed_ok sw o1 c1 e1 w (m w) -> (forall w1, fed_ok (fed sw c1 e1) o2 c2 e2 w1 (k (fed sw c1 e1) w1)) ->
  fed_ok sw (o1 ++ o2) (c1 ++ c2) e2 w (bind m k w).
Proof.
  unfold fed_ok, bind. intros H1 H2. destruct (m w) as [[sw1|x|p] w1]; cbn [fst snd] in *; destruct H1 as (u & H1); [| |easy].
  - destruct H1 as (f & M & ->). specialize (H2 w1). destruct (k (fed sw c1 e1) w1) as [[sw2|x|p] w2]; cbn [fst snd] in *;
      destruct H2 as (u2 & H2); [| |easy].
    + destruct H2 as (f2 & M2 & ->). exists (u ++ u2), (f + f2). split; [eapply moved_trans; eassumption|]. apply fed_fed.
    + destruct H2 as (io & p & f2 & -> & P & M2 & F). exists (u ++ u2), io, (o1 ++ p), (f + f2). split; [easy|].
      split; [now apply prefix_app_l|]. split; [eapply moved_trans; eassumption|now apply faulty_app_r].
  - destruct H1 as (io & p & f & -> & (q & ->) & M & F). exists u, io, p, f. split; [easy|].
    split; [exists (q ++ o2); now rewrite app_assoc|auto].
Qed.

Lemma sw_enc_fed {cd} (sw : stream_writer cd) b enc : sw_enc (fed sw b enc) = enc. Proof. reflexivity. Qed.

Lemma stream_body_ok {cd} l : enc_takes cd -> forall (sw : stream_writer cd) w,
  let '(out, enc) := feed_ops (sw_enc sw) l in
  fed_ok sw out (content l) enc w (stream_body sw l w).
Proof.
  intro T. induction l as [|o l IH]; intros sw w.
  - cbn. exists []. cbn. exists 0. split; [apply moved_refl|]. symmetry. apply fed_nil.
  - cbn [feed_ops]. assert (H : let '(out, enc) := feed_op (sw_enc sw) o in
      fed_ok sw out (op_content o) enc w
        (match o with SWriteAll b => stream_write_all sw b | SFlush => stream_flush sw end w)).
    { destruct o as [b|]; [apply stream_write_all_ok; exact T|apply stream_flush_ok]. }
    destruct (feed_op (sw_enc sw) o) as [o1 e1].
    destruct (feed_ops e1 l) as [o2 e2] eqn:E2. 
    replace (stream_body sw (o :: l)) with
      (bind (match o with SWriteAll b => stream_write_all sw b | SFlush => stream_flush sw end) (fun sw => stream_body sw l))
      by (destruct o; reflexivity).
    change (content (o :: l)) with (op_content o ++ content l).
    apply fed_ok_seq with (e1 := e1); [exact H|]. intros w1. specialize (IH (fed sw (op_content o) e1) w1).
    rewrite sw_enc_fed, E2 in IH. exact IH.
Qed.

(** ** entry_stream.rs 201-285, in closed form *)
Definition fin_writes {cd} (enc : option (est cd)) : list bytes :=
  match enc with Some st => [enc_finish cd st] | None => [] end.
Definition sc_e1 {cd} (sw : stream_writer cd) : zentry :=
  if sw_pre sw then sw_entry sw
  else set_uncompressed_size (set_crc32 (sw_entry sw) (hasher_finalize (sw_hasher sw))) (sw_uoffset sw).
Definition sc_e2 {cd} (sw : stream_writer cd) (csz : N) : zentry :=
  let e := sc_e1 sw in
  if sw_force_no sw then e
  else set_extra e (put_zip64 (en_uncompressed_size e) csz (sw_lfh_offset sw) (en_extra e)).
Definition sc_big {cd} (sw : stream_writer cd) (csz : N) : bool :=
  over (en_uncompressed_size (sc_e1 sw)) || over csz || over (sw_lfh_offset sw).
(** the first size written is the uncompressed one (entry_stream.rs 228-229) *)
Definition sc_first {cd} (sw : stream_writer cd) : N :=
  if sw_force_no sw then as_u32 (en_uncompressed_size (sc_e1 sw)) else NON_ZIP64_MAX_SIZE.
Definition sc_second {cd} (sw : stream_writer cd) (csz : N) : N :=
  if sw_force_no sw then as_u32 csz else NON_ZIP64_MAX_SIZE.
Definition sc_off {cd} (sw : stream_writer cd) : N :=
  if sw_force_no sw then as_u32 (sw_lfh_offset sw) else NON_ZIP64_MAX_SIZE.
Definition sc_cd {cd} (sw : stream_writer cd) (csz : N) : cd_entry :=
  let e := sc_e2 sw csz in
  {| ce_header := make_cdr (sw_lfh sw) e (sc_first sw) (sc_second sw csz) (sc_off sw); ce_entry := e |}.
Definition sc_descriptor {cd} (sw : stream_writer cd) (csz : N) : list bytes :=
  [to_le 4 DATA_DESCRIPTOR_SIGNATURE; to_le 4 (en_crc32 (sc_e1 sw)); to_le 4 (sc_first sw); to_le 4 (sc_second sw csz)].

Definition close_rest {cd} (sw : stream_writer cd) : SM world unit := fun w =>
  let csz := w_offset w - sw_data_offset sw in
  if sw_force_no sw && sc_big sw csz then (Err (Zip64Needed LargeFile), w)
  else if negb (fields_count_bytes (en_extra (sc_e2 sw csz)) <? 65536) then (Err ExtraFieldTooLarge, w)
  else (puts (sc_descriptor sw csz) ;;;
        if len (basic_bytes (en_comment (sw_entry sw))) <? 65536
        then push_and_check (sw_force_no sw) (sc_cd sw csz) else fail CommentTooLarge) w.

Lemma stream_close_eq {cd} (sw : stream_writer cd) w :
  fields_count_bytes (en_extra (sw_entry sw)) < 65536 ->
  l_extra_field_length (sw_lfh sw) = fields_count_bytes (en_extra (sw_entry sw)) ->
  stream_close sw w = (puts (fin_writes (sw_enc sw)) ;;; close_rest sw) w.
Proof.
  intros HX HL. unfold stream_close, compressed_close, shutdown_ignored_close.
  assert (R : forall w1,
    (let e := if sw_pre sw then sw_entry sw
              else set_uncompressed_size (set_crc32 (sw_entry sw) (hasher_finalize (sw_hasher sw))) (sw_uoffset sw) in
     w <- get ;;
     let compressed_size := w_offset w - sw_data_offset sw in
     '(cdr_compressed_size, cdr_uncompressed_size, lh_offset, e, xlen) <-
       (if sw_force_no sw then
          if (NON_ZIP64_MAX_SIZE <? en_uncompressed_size e) || (NON_ZIP64_MAX_SIZE <? compressed_size)
             || (NON_ZIP64_MAX_SIZE <? sw_lfh_offset sw)
          then fail (Zip64Needed LargeFile)
          else ret (as_u32 (en_uncompressed_size e), as_u32 compressed_size, as_u32 (sw_lfh_offset sw), e,
                    l_extra_field_length (sw_lfh sw))
        else
          let e := set_extra e (put_zip64 (en_uncompressed_size e) compressed_size (sw_lfh_offset sw) (en_extra e)) in
          xlen <- lift (try_u16 (fields_count_bytes (en_extra e)) ExtraFieldTooLarge) ;;
          ret (NON_ZIP64_MAX_SIZE, NON_ZIP64_MAX_SIZE, NON_ZIP64_MAX_SIZE, e, xlen)) ;;
     write_all (to_le 4 DATA_DESCRIPTOR_SIGNATURE) ;;;
     write_all (to_le 4 (en_crc32 e)) ;;;
     write_all (to_le 4 cdr_compressed_size) ;;;
     write_all (to_le 4 cdr_uncompressed_size) ;;;
     let comment_basic := basic_bytes (en_comment e) in
     clen <- lift (try_u16 (len comment_basic) CommentTooLarge) ;;
     let h := sw_lfh sw in
     let cdh :=
       {| c_v_made_by := as_made_by; c_v_needed := l_version h; c_flags := l_flags h;
          c_compression := l_compression h; c_mod_time := l_mod_time h; c_mod_date := l_mod_date h;
          c_crc := en_crc32 e; c_compressed_size := cdr_compressed_size;
          c_uncompressed_size := cdr_uncompressed_size; c_file_name_length := l_file_name_length h;
          c_extra_field_length := xlen; c_file_comment_length := clen; c_disk_start := 0;
          c_inter_attr := en_iattr e; c_exter_attr := en_eattr e; c_lh_offset := lh_offset |} in
     push_and_check (sw_force_no sw) {| ce_header := cdh; ce_entry := e |}) w1 = close_rest sw w1).
  { intro w1. cbv zeta. unfold bind at 1. unfold get at 1. cbv beta iota.
    assert (X1 : fields_count_bytes (en_extra (sc_e1 sw)) = fields_count_bytes (en_extra (sw_entry sw))).
    { unfold sc_e1. destruct (sw_pre sw); reflexivity. }
    assert (C1 : en_comment (sc_e1 sw) = en_comment (sw_entry sw)).
    { unfold sc_e1. destruct (sw_pre sw); reflexivity. }
    match goal with |- context [if sw_pre sw then ?a else ?b] => change (if sw_pre sw then a else b) with (sc_e1 sw) end.
    unfold close_rest. set (csz := w_offset w1 - sw_data_offset sw). cbv zeta.
    unfold sc_cd, sc_e2, sc_big, sc_descriptor, sc_first, sc_second, sc_off, over. cbv zeta.
    destruct (sw_force_no sw); cbn [andb].
    - destruct (_ || _ || _); [reflexivity|]. rewrite X1. replace (fields_count_bytes (en_extra (sw_entry sw)) <? 65536) with true by lia.
      cbn [negb puts]. unfold bind, ret. rewrite HL, C1. unfold make_cdr. rewrite X1, C1.
      do 4 (match goal with |- context [write_all ?a ?w] => destruct (write_all a w) as [[?|?|?] ?]; [|reflexivity|reflexivity] end).
      unfold lift, try_u16. destruct (len (basic_bytes (en_comment (sw_entry sw))) <? 65536); reflexivity.
    - set (e2 := set_extra _ _). unfold bind at 1 2. unfold lift at 1, try_u16 at 1.
      destruct (fields_count_bytes (en_extra e2) <? 65536); cbn [negb]; [|reflexivity].
      unfold ret at 1. cbv beta iota. cbn [puts]. unfold bind, ret.
      change (en_crc32 e2) with (en_crc32 (sc_e1 sw)).
      do 4 (match goal with |- context [write_all ?a ?w] => destruct (write_all a w) as [[?|?|?] ?]; [|reflexivity|reflexivity] end).
      change (en_comment e2) with (en_comment (sc_e1 sw)). unfold make_cdr. change (en_comment e2) with (en_comment (sc_e1 sw)).
      rewrite C1. unfold lift, try_u16. destruct (len (basic_bytes (en_comment (sw_entry sw))) <? 65536); reflexivity. }
  destruct (sw_enc sw) as [st|]; cbn [fin_writes puts]; apply bind_ext; intros [] w1; exact (R w1).
Qed.
