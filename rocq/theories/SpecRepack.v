(** What a strict check sees of the entries of a session, and of archives whose entries were written to another one. *)
From Verif Require Import Base SpecFormat SpecCrc SpecUtf8 SpecArchive SpecWrite SpecStrict SpecAccept SpecExact ZString ZDate ExtraField Entry EntryReader IO Writer.

(** the content that a call's data stands for *)
Definition gives (cd : codec) (o : wop) (content : bytes) : Prop :=
  match o with
  | OpWhole _ data => content = data
  | OpWholePre e z => unpack cd (en_compression e) z = Some content
  | OpStream false _ body _ => content = fed_bytes body
  | OpStream true e body _ => unpack cd (en_compression e) (fed_bytes body) = Some content
  | _ => False
  end.
(** the check sees the entry that the call wrote *)
Definition seen_as (cd : codec) (o : wop) (v : sight) : Prop :=
  let r := v_listing v in
  exists e, op_entry o = Some e /\ r_name r = stored_bytes (en_filename e) /\ method_of (r_method r) = Some (en_compression e) /\
    r_date r = zd_date (en_date e) /\ r_time r = zd_time (en_date e) /\
    r_comment r = stored_bytes (en_comment e) /\ r_iattr r = en_iattr e /\ r_eattr r = en_eattr e /\
    gives cd o (v_content v) /\ v_usize v = len (v_content v) /\ r_crc r = crc32_spec (v_content v).

(** an entry as it was read, with its content, such that it can be written without ZIP64 *)
Definition unwide (e : zentry) : Prop := Forall (fun f => match f with XZip64 _ => False | _ => True end) (en_extra e).
Definition portable (x : zentry * bytes) : Prop := unwide (fst x) /\ len (snd x) <= 0xFFFFFFFF.
(** the same entry, but for where and how tightly it is packed *)
Definition same_sight (v v' : sight) : Prop :=
  let r := v_listing v in let r' := v_listing v' in
  r_name r' = r_name r /\ r_method r' = r_method r /\ r_date r' = r_date r /\ r_time r' = r_time r /\ r_crc r' = r_crc r /\
  r_comment r' = r_comment r /\ r_iattr r' = r_iattr r /\ r_eattr r' = r_eattr r /\
  v_usize v' = v_usize v /\ v_content v' = v_content v.
(** UTF-8 is not claimed falsely *)
Definition truthful (r : row) : Prop := N.testbit (w_flags r) 11 = true -> SpecUtf8.is_utf8 (w_name r) /\ SpecUtf8.is_utf8 (SpecExact.w_comment r).
