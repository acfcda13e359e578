(** base/read/stream.rs: reading an archive front to back. *)
From Verif Require Import Base Headers Entry IO Reader EntryReader.

(** stream.rs 69-78: the two states of the reader. *)
Record reading := { rd_reader : ereader; rd_entry : zentry; rd_descriptor : bool }.

(** stream.rs 90-114 [next_without_entry] / [next_with_entry] *)
Definition stream_next (cfg : config) (s : source) : res (option reading) * source :=
  match lfh_read cfg s with
  | (Ok None, s') => (Ok None, s')
  | (Ok (Some entry), s') =>
    let length := if en_data_descriptor entry then u64_max else en_compressed_size entry in
    (Ok (Some {| rd_reader := er_new s' (en_compression entry) length; rd_entry := entry;
                 rd_descriptor := en_data_descriptor entry |}), s')
  | (Err e, s') => (Err e, s')
  | (Panic p, s') => (Panic p, s')
  end.

(** stream.rs 177-187 [consume_data_descriptor] *)
Definition consume_data_descriptor : SM source unit :=
  descriptor <- read_exact DATA_DESCRIPTOR_LENGTH ;;
  if bytes_eqb (take SIGNATURE_LENGTH descriptor) (to_le 4 DATA_DESCRIPTOR_SIGNATURE)
  then read_exact SIGNATURE_LENGTH ;;; ret tt
  else ret tt.

Definition finish_entry (descriptor : bool) (r : ereader) : res source :=
  let inner := er_src r in
  if descriptor then
    match consume_data_descriptor inner with
    | (Ok _, s) => Ok s | (Err e, _) => Err e | (Panic p, _) => Panic p
    end
  else Ok inner.

(** stream.rs 148-161 [done] *)
Definition stream_done (cd : codec) (x : reading) : res source :=
  match er_read cd 1 (rd_reader x) with
  | (Ok b, r) => if negb (len b =? 0) then Err EOFNotReached else finish_entry (rd_descriptor x) r
  | (Err e, _) => Err e
  | (Panic p, _) => Panic p
  end.

(** stream.rs 164-174 [skip] *)
Fixpoint skip_loop (cd : codec) (fuel : nat) : SM ereader unit :=
  match fuel with
  | O => lift (Panic PFuel)
  | S f => b <- er_read cd 2048 ;; if len b =? 0 then ret tt else skip_loop cd f
  end.

Definition stream_skip (cd : codec) (x : reading) : res source :=
  match skip_loop cd (er_fuel cd (rd_reader x)) (rd_reader x) with
  | (Ok _, r) => finish_entry (rd_descriptor x) r
  | (Err e, _) => Err e
  | (Panic p, _) => Panic p
  end.
