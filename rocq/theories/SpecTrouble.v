(** Why an archive does not open, and why a stream has no next entry: every error and every panic, with the bytes that cause it. *)
From Verif Require Import Base SpecFormat SpecArchive SpecStrict SpecExact Headers ExtraField Entry Reader.

Inductive trouble := Gives (e : zip_error) | Panics (p : panic).
Definition failed {A} (t : trouble) : res A := match t with Gives e => Err e | Panics p => Panic p end.
Definition cut_short : trouble := Gives (UpstreamReadError UnexpectedEof).

(** ** Extra fields *)
(** a Unicode field holds a version and, in version 1, a checksum *)
Definition complete (f : N * bytes) : Prop :=
  fst f = 0x6375 \/ fst f = 0x7075 ->
  match snd f with [] => False | v :: _ => b2n v = 1 -> 5 <= len (snd f) end.
Definition incomplete (f : N * bytes) : trouble :=
  Gives (if fst f =? 0x6375 then InfoZipUnicodeCommentFieldIncomplete else InfoZipUnicodePathFieldIncomplete).
(** the first bad field; the error for a field that claims too much is meant to say how much there is, but that subtraction underflows *)
Inductive fields_fail (cfg : config) : bytes -> trouble -> Prop :=
| ff_claims l id n m : 4 < len l -> nums [2; 2]%nat l = Some ([id; n], m) -> len m < n ->
    fields_fail cfg l (if overflow_checks cfg then Panics POverflow
                       else Gives (InvalidExtraFieldHeader n (0x10000000000000000 + len m - (4 + n))))
| ff_incomplete l id n m p r : 4 < len l -> nums [2; 2]%nat l = Some ([id; n], m) -> text n m = Some (p, r) -> ~ complete (id, p) ->
    fields_fail cfg l (incomplete (id, p))
| ff_later l id n m p r t : 4 < len l -> nums [2; 2]%nat l = Some ([id; n], m) -> text n m = Some (p, r) -> complete (id, p) ->
    fields_fail cfg r t -> fields_fail cfg l t.

(** ** The directory *)
Inductive row_fails (cfg : config) (l : bytes) : trouble -> Prop :=
| rf_nothing : len l < 4 -> row_fails cfg l cut_short
| rf_signature : 4 <= len l -> value (upto 4 l) <> 0x02014b50 -> row_fails cfg l (Gives (UnexpectedHeaderError (value (upto 4 l)) 0x02014b50))
| rf_cut : value (upto 4 l) = 0x02014b50 -> 4 <= len l < 46 -> row_fails cfg l cut_short
| rf_method made needed flags method time date crc cs us nl xl cl disk ia ea off m :
    nums [4; 2; 2; 2; 2; 2; 2; 4; 4; 4; 2; 2; 2; 2; 2; 4; 4]%nat l =
      Some ([0x02014b50; made; needed; flags; method; time; date; crc; cs; us; nl; xl; cl; disk; ia; ea; off], m) ->
    method_of method = None -> row_fails cfg l (Gives (CompressionNotSupported method))
| rf_fields made needed flags method time date crc cs us nl xl cl disk ia ea off m c t :
    nums [4; 2; 2; 2; 2; 2; 2; 4; 4; 4; 2; 2; 2; 2; 2; 4; 4]%nat l =
      Some ([0x02014b50; made; needed; flags; method; time; date; crc; cs; us; nl; xl; cl; disk; ia; ea; off], m) ->
    method_of method = Some c -> fields_fail cfg (upto xl (past nl m)) t -> row_fails cfg l t.
Definition row_good (r : row) : Prop := method_of (w_method r) <> None /\ Forall complete (w_fields r).
(** the first of [n] records that fails *)
Inductive rows_fail (cfg : config) : bytes -> N -> trouble -> Prop :=
| rs_here l n t : 0 < n -> row_fails cfg l t -> rows_fail cfg l n t
| rs_later l n r m t : 0 < n -> read_row l r m -> row_good r -> rows_fail cfg m (n - 1) t -> rows_fail cfg l n t.

(** ** The end of the archive *)
(** the last 67456 bytes are searched *)
Definition reach : N := 67456.
Definition last_end_at (d : bytes) (a : N) : Prop :=
  found_at (le 4 0x06054b50) d a /\ (forall q, found_at (le 4 0x06054b50) d q -> q <= a) /\ len d <= a + reach.
Definition end_here (d : bytes) (a : N) (d1 d2 n1 n2 off : N) : Prop :=
  last_end_at d a /\ exists size cl rest, nums [4; 2; 2; 2; 2; 4; 4; 2]%nat (past a d) = Some ([0x06054b50; d1; d2; n1; n2; size; off; cl], rest).
Definition locator_here (d : bytes) (a lo : N) : Prop :=
  20 <= a /\ exists ldisk disks more, nums [4; 4; 8; 4]%nat (past (a - 20) d) = Some ([0x07064b50; ldisk; lo; disks], more).
Definition no_locator (d : bytes) (a : N) : Prop := 20 <= a -> ~ found_at (le 4 0x07064b50) d (a - 20).
Definition end64_here (d : bytes) (lo z1 z2 zn1 zn2 : N) : Prop := exists zsize mb nd zsz zoff more,
  nums [8; 2; 2; 4; 4; 8; 8; 8; 8]%nat (past ((lo + 4) mod 0x10000000000000000) d) = Some ([zsize; mb; nd; z1; z2; zn1; zn2; zsz; zoff], more).
Definition overflows (cfg : config) (lo : N) : Prop := overflow_checks cfg = true /\ 0x10000000000000000 <= lo + 4.
Inductive end_fails (cfg : config) (d : bytes) : trouble -> Prop :=
| ef_none : (forall q, found_at (le 4 0x06054b50) d q -> q + reach < len d) -> end_fails cfg d (Gives UnableToLocateEOCDR)
| ef_cut a : last_end_at d a -> len d < a + 22 -> end_fails cfg d cut_short
| ef_overflow a d1 d2 n1 n2 off lo : end_here d a d1 d2 n1 n2 off -> locator_here d a lo -> overflows cfg lo -> end_fails cfg d (Panics POverflow)
| ef_cut64 a d1 d2 n1 n2 off lo : end_here d a d1 d2 n1 n2 off -> locator_here d a lo -> ~ overflows cfg lo ->
    len d < (lo + 4) mod 0x10000000000000000 + 52 -> end_fails cfg d cut_short
| ef_split a d1 d2 n1 n2 off : end_here d a d1 d2 n1 n2 off -> no_locator d a -> d1 <> d2 \/ n1 <> n2 -> end_fails cfg d (Gives (FeatureNotSupported FSplit))
| ef_split64 a d1 d2 n1 n2 off lo z1 z2 zn1 zn2 : end_here d a d1 d2 n1 n2 off -> locator_here d a lo -> ~ overflows cfg lo ->
    end64_here d lo z1 z2 zn1 zn2 -> chosen 0xFFFF d1 z1 <> chosen 0xFFFF d2 z2 \/ chosen 0xFFFF n1 zn1 <> chosen 0xFFFF n2 zn2 ->
    end_fails cfg d (Gives (FeatureNotSupported FSplit)).

(** * Opening *)
(** the end is found; the count can be held *)
Definition end_good (cfg : config) (d : bytes) (x : ending) : Prop :=
  ends d x /\ len d <= n_at x + reach /\ match n_locator x with Some lo => ~ overflows cfg lo | None => True end.
Inductive open_fails (cfg : config) (d : bytes) : trouble -> Prop :=
| of_end t : end_fails cfg d t -> open_fails cfg d t
| of_capacity x : end_good cfg d x -> isize_max < n_count x * entry_mem_size cfg -> open_fails cfg d (Panics PCapacity)
| of_rows x t : end_good cfg d x -> n_count x * entry_mem_size cfg <= isize_max -> rows_fail cfg (past (n_offset x) d) (n_count x) t -> open_fails cfg d t.
Definition openable (cfg : config) (d : bytes) : Prop :=
  exists x rs, says d x rs /\ end_good cfg d x /\ n_count x * entry_mem_size cfg <= isize_max /\ Forall row_good rs.

(** * The next header of a stream *)
Inductive top_fails (cfg : config) (l : bytes) : trouble -> Prop :=
| tf_nothing : len l < 4 -> top_fails cfg l cut_short
| tf_signature : 4 <= len l -> value (upto 4 l) <> 0x02014b50 -> value (upto 4 l) <> 0x04034b50 ->
    top_fails cfg l (Gives (UnexpectedHeaderError (value (upto 4 l)) 0x04034b50))
| tf_cut : value (upto 4 l) = 0x04034b50 -> 4 <= len l < 30 -> top_fails cfg l cut_short
| tf_method needed flags method time date crc cs us nl xl m :
    nums [4; 2; 2; 2; 2; 2; 4; 4; 4; 2; 2]%nat l = Some ([0x04034b50; needed; flags; method; time; date; crc; cs; us; nl; xl], m) ->
    method_of method = None -> top_fails cfg l (Gives (CompressionNotSupported method))
| tf_fields needed flags method time date crc cs us nl xl m c t :
    nums [4; 2; 2; 2; 2; 2; 4; 4; 4; 2; 2]%nat l = Some ([0x04034b50; needed; flags; method; time; date; crc; cs; us; nl; xl], m) ->
    method_of method = Some c -> fields_fail cfg (upto xl (past nl m)) t -> top_fails cfg l t
| tf_endless t m : read_top l t m -> Forall complete (tp_fields t) -> method_of (tp_method t) = Some Stored -> N.testbit (tp_flags t) 3 = true ->
    top_fails cfg l (Gives (FeatureNotSupported FStreamStored))
| tf_encrypted t m c : read_top l t m -> Forall complete (tp_fields t) -> method_of (tp_method t) = Some c ->
    ~ (c = Stored /\ N.testbit (tp_flags t) 3 = true) -> N.testbit (tp_flags t) 0 = true ->
    top_fails cfg l (Gives (FeatureNotSupported FEncryption)).
