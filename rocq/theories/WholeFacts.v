(** Writing a whole entry: what is checked, what is written, what is recorded. *)
From Verif Require Import Base BaseFacts Crc32 CrcFacts ZString ZDate Headers ExtraField ExtraFieldFacts Entry IO Reader EntryReader Writer WriterFacts.
Arguments N.add : simpl never.
Arguments N.sub : simpl never.
Arguments N.min : simpl never.

(** several writes in a row *)
Fixpoint puts (l : list bytes) : SM world unit :=
  match l with [] => ret tt | b :: r => write_all b ;;; puts r end.
(** the bytes [b] are written, or the sink fails after some of them *)
Definition put_ok (b : bytes) (w : world) (x : res unit * world) : Prop :=
  exists u, match fst x with
    | Ok _ => moved w (snd x) b u 0 /\ steady u
    | Err e => exists io p, e = UpstreamReadError io /\ prefix p b /\ moved w (snd x) p u 0 /\ faulty u io
    | Panic _ => False
    end.
Lemma put_ok_write_all b w : put_ok b w (write_all b w).
Proof. unfold put_ok. pose proof (write_all_spec b w) as H. destruct (write_all b w) as [r w']. exact H. Qed.
Lemma put_ok_seq a b (m1 m2 : SM world unit) w : put_ok a w (m1 w) -> (forall w1, put_ok b w1 (m2 w1)) ->
  put_ok (a ++ b) w ((m1 ;;; m2) w).
Proof.
  unfold put_ok, bind. intros H1 H2. destruct (m1 w) as [[x|e|p] w1]; cbn [fst snd] in *; destruct H1 as (u & H1); [| |easy].
  - destruct H1 as (M & S). specialize (H2 w1). destruct (m2 w1) as [[y|e|p] w2]; cbn [fst snd] in *; destruct H2 as (u2 & H2); [| |easy].
    + destruct H2 as (M2 & S2). exists (u ++ u2). split; [|now apply steady_app].
      rewrite <- (N.add_0_l 0). eapply moved_trans; eassumption.
    + destruct H2 as (io & p & -> & P & M2 & F). exists (u ++ u2), io, (a ++ p). split; [easy|].
      split; [now apply prefix_app_l|]. split; [|now apply faulty_app_r].
      rewrite <- (N.add_0_l 0). eapply moved_trans; eassumption.
  - destruct H1 as (io & p & -> & (q & ->) & M & F). exists u, io, p. split; [easy|].
    split; [exists (q ++ b); now rewrite app_assoc|]. auto.
Qed.
Lemma puts_ok l : forall w, put_ok (concat l) w (puts l w).
Proof.
  induction l as [|b l IH]; intro w; cbn [puts concat].
  - exists []. cbn. split; [apply moved_refl|apply steady_nil].
  - apply put_ok_seq; [apply put_ok_write_all|exact IH].
Qed.
Lemma puts_then {A} b l (k : SM world A) w : (write_all b ;;; puts l ;;; k) w = (puts (b :: l) ;;; k) w.
Proof. unfold bind. cbn [puts]. unfold bind. destruct (write_all b w) as [[]]; reflexivity. Qed.
Lemma puts_last {A} b (k : SM world A) w : (write_all b ;;; k) w = (puts [b] ;;; k) w.
Proof. unfold bind. cbn [puts]. unfold bind, ret. destruct (write_all b w) as [[]]; reflexivity. Qed.

(** ** The header fields in one place *)
Definition flags_of (descriptor flag : bool) : gpflag :=
  {| gp_encrypted := false; gp_data_descriptor := descriptor; gp_filename_unicode := flag |}.
Definition make_lfh (descriptor : bool) (e : zentry) (csz usz : N) (flag : bool) : lfh :=
  {| l_version := as_needed_to_extract e; l_flags := flags_of descriptor flag;
     l_compression := compression_to (en_compression e);
     l_mod_time := zd_time (en_date e); l_mod_date := zd_date (en_date e); l_crc := en_crc32 e;
     l_compressed_size := csz; l_uncompressed_size := usz;
     l_file_name_length := len (basic_bytes (en_filename e)); l_extra_field_length := fields_count_bytes (en_extra e) |}.
Definition make_cdr (h : lfh) (e : zentry) (csz usz off : N) : cdr :=
  {| c_v_made_by := as_made_by; c_v_needed := l_version h; c_flags := l_flags h; c_compression := l_compression h;
     c_mod_time := l_mod_time h; c_mod_date := l_mod_date h; c_crc := en_crc32 e;
     c_compressed_size := csz; c_uncompressed_size := usz; c_file_name_length := l_file_name_length h;
     c_extra_field_length := fields_count_bytes (en_extra e);
     c_file_comment_length := len (basic_bytes (en_comment e)); c_disk_start := 0; c_inter_attr := en_iattr e;
     c_exter_attr := en_eattr e; c_lh_offset := off |}.

Definition fields_bytes (l : list extra_field) : bytes := match fields_as_bytes l with Ok b => b | _ => [] end.
Definition head_writes (h : lfh) (e : zentry) : list bytes :=
  [to_le 4 LFH_SIGNATURE; lfh_as_slice h; basic_bytes (en_filename e); fields_bytes (en_extra e)].

(** ** entry_whole.rs, in closed form *)
Definition over (n : N) : bool := NON_ZIP64_MAX_SIZE <? n.
Definition wh_big (e : zentry) (d : bytes) : bool := over (en_uncompressed_size e) || over (len d).
Definition wh_zip64 (e : zentry) (d : bytes) (off : N) : zip64_field :=
  {| zf_uncompressed := Some (en_uncompressed_size e); zf_compressed := Some (len d);
     zf_offset := if over off then Some off else None; zf_disk := None |}.
Definition wh_e2 (e : zentry) (d : bytes) (off : N) : zentry :=
  let e := set_compressed_size e (len d) in
  if wh_big e d then
    set_extra (set_compressed_size (set_uncompressed_size e NON_ZIP64_MAX_SIZE) NON_ZIP64_MAX_SIZE)
      (en_extra e ++ [XZip64 (wh_zip64 e d off)])
  else e.
Definition wh_e3 (e : zentry) (d : bytes) (off : N) : zentry := add_unicode_fields (wh_e2 e d off).
Definition wh_lfh (e : zentry) (d : bytes) (off : N) : lfh :=
  let e3 := wh_e3 e d off in
  make_lfh false e3 (as_u32 (en_compressed_size e3)) (as_u32 (en_uncompressed_size e3)) (utf8_flag (wh_e2 e d off)).
Definition late (e : zentry) (d : bytes) (off : N) : bool := negb (wh_big e d) && over off.
Definition wh_e4 (e : zentry) (d : bytes) (off : N) : zentry :=
  let e3 := wh_e3 e d off in
  if late e d off then
    set_extra e3 (en_extra e3 ++ [XZip64 {| zf_uncompressed := None; zf_compressed := None; zf_offset := Some off; zf_disk := None |}])
  else e3.
Definition wh_off (off : N) : N := if over off then NON_ZIP64_MAX_SIZE else as_u32 off.
Definition wh_cd (e : zentry) (d : bytes) (off : N) : cd_entry :=
  let h := wh_lfh e d off in
  {| ce_header := make_cdr h (wh_e4 e d off) (l_compressed_size h) (l_uncompressed_size h) (wh_off off);
     ce_entry := wh_e4 e d off |}.

Definition wh_refused (e : zentry) (d : bytes) (off : N) : option zip_error :=
  let e3 := wh_e3 e d off in
  if negb (fields_count_bytes (en_extra e3) <? 65536) then Some ExtraFieldTooLarge
  else if negb (len (basic_bytes (en_filename e3)) <? 65536) then Some FileNameTooLarge
  else if negb (len (basic_bytes (en_comment e3)) <? 65536) then Some CommentTooLarge
  else None.
Definition wh_world (e : zentry) (d : bytes) (w : world) : world :=
  if wh_big e d || over (w_offset w) then set_zip64 w true else w.

Lemma unicode_basic e : basic_bytes (en_filename (add_unicode_fields e)) = basic_bytes (en_filename e) /\
  basic_bytes (en_comment (add_unicode_fields e)) = basic_bytes (en_comment e).
Proof. unfold add_unicode_fields. now destruct (utf8_flag e). Qed.

Lemma lift_ok {A B} (a : A) (k : A -> SM world B) w : bind (lift (Ok a)) k w = k a w. Proof. reflexivity. Qed.

Lemma late_count x : field_count_bytes (XZip64 {| zf_uncompressed := None; zf_compressed := None; zf_offset := Some x; zf_disk := None |}) = 12.
Proof. reflexivity. Qed.
Lemma fields_count_app a b : fields_count_bytes (a ++ b) = fields_count_bytes a + fields_count_bytes b.
Proof. induction a as [|x a IH]; cbn [fields_count_bytes app]; [lia|]. rewrite IH. lia. Qed.

Lemma build_offset off : zfb_build (zfb_offset zfb_new off) =
  Ok {| zf_uncompressed := None; zf_compressed := None; zf_offset := Some off; zf_disk := None |}.
Proof. reflexivity. Qed.
Lemma build_sizes c u : zfb_build (zfb_sizes zfb_new c u) =
  Ok {| zf_uncompressed := Some u; zf_compressed := Some c; zf_offset := None; zf_disk := None |}.
Proof. reflexivity. Qed.
Lemma build_both c u off : zfb_build (zfb_offset (zfb_sizes zfb_new c u) off) =
  Ok {| zf_uncompressed := Some u; zf_compressed := Some c; zf_offset := Some off; zf_disk := None |}.
Proof. reflexivity. Qed.

Lemma whole_body_eq e d w : whole_write_body e d w =
  let off := w_offset w in
  if (wh_big e d || over off) && w_force_no w then (Err (Zip64Needed LargeFile), w)
  else match wh_refused e d off with
  | Some x => (Err x, wh_world e d w)
  | None =>
    (puts (head_writes (wh_lfh e d off) (wh_e3 e d off) ++ [d]) ;;;
     if fields_count_bytes (en_extra (wh_e4 e d off)) <? 65536
     then push_and_check (w_force_no w) (wh_cd e d off)
     else fail ExtraFieldTooLarge) (wh_world e d w)
  end.
Proof.
  cbv zeta. unfold whole_write_body, enforce_zip64_sizes, enforce_zip64_offset.
  set (e1 := set_compressed_size e (len d)).
  change (en_uncompressed_size e1) with (en_uncompressed_size e). change (en_compressed_size e1) with (len d).
  fold (over (en_uncompressed_size e)) (over (len d)). fold (wh_big e d).
  assert (OV : (w_offset w <=? NON_ZIP64_MAX_SIZE) = negb (over (w_offset w))).
  { unfold over. destruct (N.leb_spec (w_offset w) NON_ZIP64_MAX_SIZE), (N.ltb_spec NON_ZIP64_MAX_SIZE (w_offset w)); try reflexivity; lia. }
  assert (TAIL : forall e2 builder w1 (lho : N) fn,
    fn = w_force_no w -> w_offset w1 = w_offset w -> w_force_no w1 = w_force_no w ->
    e2 = wh_e2 e d (w_offset w) -> w1 = wh_world e d w ->
    builder = (if late e d (w_offset w) then Some (zfb_offset zfb_new (w_offset w)) else None) ->
    as_u32 lho = wh_off (w_offset w) ->
    (let flag := utf8_flag e2 in
     let e := add_unicode_fields e2 in
     xlen <- lift (try_u16 (fields_count_bytes (en_extra e)) ExtraFieldTooLarge) ;;
     nlen <- lift (try_u16 (len (basic_bytes (en_filename e))) FileNameTooLarge) ;;
     let lf_header :=
       {| l_version := as_needed_to_extract e;
          l_flags := {| gp_encrypted := false; gp_data_descriptor := false; gp_filename_unicode := flag |};
          l_compression := compression_to (en_compression e);
          l_mod_time := zd_time (en_date e); l_mod_date := zd_date (en_date e); l_crc := en_crc32 e;
          l_compressed_size := as_u32 (en_compressed_size e);
          l_uncompressed_size := as_u32 (en_uncompressed_size e);
          l_file_name_length := nlen; l_extra_field_length := xlen |} in
     clen <- lift (try_u16 (len (basic_bytes (en_comment e))) CommentTooLarge) ;;
     let header xlen :=
       {| c_v_made_by := as_made_by; c_v_needed := l_version lf_header; c_flags := l_flags lf_header;
          c_compression := l_compression lf_header; c_mod_time := l_mod_time lf_header;
          c_mod_date := l_mod_date lf_header; c_crc := l_crc lf_header;
          c_compressed_size := l_compressed_size lf_header;
          c_uncompressed_size := l_uncompressed_size lf_header;
          c_file_name_length := l_file_name_length lf_header; c_extra_field_length := xlen;
          c_file_comment_length := clen; c_disk_start := 0; c_inter_attr := en_iattr e;
          c_exter_attr := en_eattr e; c_lh_offset := as_u32 lho |} in
     write_all (to_le 4 LFH_SIGNATURE) ;;;
     write_all (lfh_as_slice lf_header) ;;;
     write_all (basic_bytes (en_filename e)) ;;;
     xb <- lift (fields_as_bytes (en_extra e)) ;;
     write_all xb ;;;
     write_all d ;;;
     '(e, xlen) <-
       match builder with
       | Some b =>
         z <- lift (zfb_build b) ;;
         let e := set_extra e (en_extra e ++ [XZip64 z]) in
         xlen <- lift (try_u16 (fields_count_bytes (en_extra e)) ExtraFieldTooLarge) ;;
         ret (e, xlen)
       | None => ret (e, xlen)
       end ;;
     w <- get ;;
     push_and_check (w_force_no w) {| ce_header := header xlen; ce_entry := e |}) w1 =
    match wh_refused e d (w_offset w) with
    | Some x => (Err x, wh_world e d w)
    | None =>
      (puts (head_writes (wh_lfh e d (w_offset w)) (wh_e3 e d (w_offset w)) ++ [d]) ;;;
       if fields_count_bytes (en_extra (wh_e4 e d (w_offset w))) <? 65536
       then push_and_check fn (wh_cd e d (w_offset w))
       else fail ExtraFieldTooLarge) (wh_world e d w)
    end).
  { intros e2 builder w1 lho fn -> HO HF -> -> -> HL. cbv zeta. rewrite HL. clear HL.
    set (off := w_offset w) in *.
    fold (wh_e3 e d off). unfold wh_refused. cbv zeta.
    unfold wh_cd, wh_lfh, make_cdr, make_lfh, flags_of, wh_e4. cbv zeta. set (e3 := wh_e3 e d off).
    unfold try_u16 at 1. destruct (N.ltb_spec (fields_count_bytes (en_extra e3)) 65536) as [L1|L1]; [|reflexivity].
    cbn [negb]. rewrite lift_ok.
    unfold try_u16 at 1. destruct (len (basic_bytes (en_filename e3)) <? 65536); [|reflexivity].
    cbn [negb]. rewrite lift_ok.
    unfold try_u16 at 1. destruct (len (basic_bytes (en_comment e3)) <? 65536); [|reflexivity].
    cbn [negb]. rewrite lift_ok.
    unfold head_writes. cbn [app puts].
    destruct (fields_as_bytes_no_panic (en_extra e3) L1) as [xb Hxb].
    unfold fields_bytes. rewrite Hxb.
    unfold bind. 
    match goal with |- context [write_all ?a (wh_world e d w)] => pose proof (write_all_spec a (wh_world e d w)) as P1; destruct (write_all a (wh_world e d w)) as [[r1|x1|p1] w2] end;
      [|reflexivity|reflexivity].
    destruct P1 as (u1 & M1 & _). apply moved_force in M1.
    match goal with |- context [write_all ?a w2] => pose proof (write_all_spec a w2) as P2; destruct (write_all a w2) as [[r2|x2|p2] w3] end;
      [|reflexivity|reflexivity].
    destruct P2 as (u2 & M2 & _). apply moved_force in M2.
    match goal with |- context [write_all ?a w3] => pose proof (write_all_spec a w3) as P3; destruct (write_all a w3) as [[r3|x3|p3] w4] end;
      [|reflexivity|reflexivity].
    destruct P3 as (u3 & M3 & _). apply moved_force in M3.
    unfold lift at 1. cbv beta iota.
    match goal with |- context [write_all ?a w4] => pose proof (write_all_spec a w4) as P4; destruct (write_all a w4) as [[r4|x4|p4] w5] end;
      [|reflexivity|reflexivity].
    destruct P4 as (u4 & M4 & _). apply moved_force in M4.
    match goal with |- context [write_all ?a w5] => pose proof (write_all_spec a w5) as P5; destruct (write_all a w5) as [[r5|x5|p5] w6] end;
      [|reflexivity|reflexivity].
    destruct P5 as (u5 & M5 & _). apply moved_force in M5.
    assert (FN : w_force_no w6 = w_force_no w) by congruence.
    unfold ret at 3. cbv beta iota.
    destruct (late e d off).
    - rewrite build_offset. unfold lift, try_u16, ret, get. cbv beta iota zeta. cbn [en_extra set_extra].
      set (zz := XZip64 _). change (XZip64 _) with zz.
      destruct (fields_count_bytes (en_extra e3 ++ [zz]) <? 65536); [|reflexivity].
      rewrite FN. reflexivity.
    - unfold ret, get. cbv beta iota. replace (fields_count_bytes (en_extra e3) <? 65536) with true by lia.
      rewrite FN. reflexivity. }
  unfold enforce_zip64.
  destruct (wh_big e d) eqn:BG; cbn [orb andb].
  - destruct (w_force_no w) eqn:FN; [unfold bind at 1 2; rewrite FN; reflexivity|].
    unfold bind at 1 2. rewrite FN. unfold ret at 1. cbv beta iota.
    unfold bind at 1. unfold get at 1. cbv beta iota. cbn [w_offset set_zip64]. rewrite OV.
    set (w1 := set_zip64 w true). 
    destruct (over (w_offset w)) eqn:OF; cbn [negb].
    + unfold bind at 1 2. change (w_force_no w1) with (w_force_no w). rewrite FN. unfold ret at 1. cbv beta iota.
      change (zfb_eof_only _) with false. cbn [negb]. rewrite build_both.
      unfold bind at 1 2. unfold lift at 1. cbv beta iota.
      unfold ret at 1. cbv beta iota. change (set_zip64 w1 true) with w1.
      refine (TAIL _ None w1 NON_ZIP64_MAX_SIZE false _ _ _ _ _ _ _); [first [reflexivity|symmetry; exact FN]|reflexivity|first [reflexivity|symmetry; exact FN|exact FN]|..].
      * unfold wh_e2. cbv zeta. change (wh_big _ d) with (wh_big e d). rewrite BG. unfold wh_zip64. rewrite OF. reflexivity.
      * unfold w1, wh_world. rewrite BG. reflexivity.
      * unfold late. rewrite BG. reflexivity.
      * unfold wh_off. rewrite OF. reflexivity.
    + unfold bind at 1. unfold ret at 1. cbv beta iota.
      change (zfb_eof_only _) with false. cbn [negb]. rewrite build_sizes.
      unfold bind at 1 2. unfold lift at 1. cbv beta iota.
      unfold ret at 1. cbv beta iota.
      refine (TAIL _ None w1 (w_offset w) false _ _ _ _ _ _ _); [first [reflexivity|symmetry; exact FN]|reflexivity|first [reflexivity|symmetry; exact FN|exact FN]|..].
      * unfold wh_e2. cbv zeta. change (wh_big _ d) with (wh_big e d). rewrite BG. unfold wh_zip64. rewrite OF. reflexivity.
      * unfold w1, wh_world. rewrite BG. reflexivity.
      * unfold late. rewrite BG. reflexivity.
      * unfold wh_off. rewrite OF. reflexivity.
  - unfold bind at 1. unfold ret at 1. cbv beta iota.
    unfold bind at 1. unfold get at 1. cbv beta iota. rewrite OV.
    destruct (over (w_offset w)) eqn:OF; cbn [negb andb].
    + unfold bind at 1 2. destruct (w_force_no w) eqn:FN; [reflexivity|]. unfold ret at 1. cbv beta iota.
      change (zfb_eof_only _) with true. cbn [negb].
      unfold bind at 1. unfold ret at 1. cbv beta iota.
      refine (TAIL _ (Some (zfb_offset zfb_new (w_offset w))) (set_zip64 w true) NON_ZIP64_MAX_SIZE false _ _ _ _ _ _ _); [first [reflexivity|symmetry; exact FN]|reflexivity|first [reflexivity|symmetry; exact FN|exact FN]|..].
      * unfold wh_e2. cbv zeta. change (wh_big _ d) with (wh_big e d). rewrite BG. reflexivity.
      * unfold wh_world. rewrite BG, OF. reflexivity.
      * unfold late. rewrite BG, OF. reflexivity.
      * unfold wh_off. rewrite OF. reflexivity.
    + unfold bind at 1. unfold ret at 1. cbv beta iota.
      unfold bind at 1. unfold ret at 1. cbv beta iota.
      refine (TAIL _ None w (w_offset w) (w_force_no w) _ _ _ _ _ _ _); [first [reflexivity|symmetry; exact FN]|reflexivity|first [reflexivity|symmetry; exact FN|exact FN]|..].
      * unfold wh_e2. cbv zeta. change (wh_big _ d) with (wh_big e d). rewrite BG. reflexivity.
      * unfold wh_world. rewrite BG, OF. reflexivity.
      * unfold late. rewrite BG, OF. reflexivity.
      * unfold wh_off. rewrite OF. reflexivity.
Qed.

Lemma push_and_check_eq fn c w : push_and_check fn c w =
  let w1 := push_cd w c in
  if NON_ZIP64_MAX_NUM_FILES <? len (w_cds w1)
  then if fn then (Err (Zip64Needed TooManyFiles), w1) else (Ok tt, set_zip64 w1 true)
  else (Ok tt, w1).
Proof.
  unfold push_and_check, bind, modify, get. cbv zeta.
  destruct (NON_ZIP64_MAX_NUM_FILES <? len (w_cds (push_cd w c))); [destruct fn|]; reflexivity.
Qed.
