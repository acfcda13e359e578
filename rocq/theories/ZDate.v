(** date/mod.rs and date/builder.rs: MS-DOS date and time. *)
From Verif Require Import Base.

(** date/mod.rs 15-18; both fields are u16 *)
Record zdate := { zd_date : N; zd_time : N }.

Definition zdate_default : zdate := {| zd_date := 0; zd_time := 0 |}.

(** date/mod.rs 22-52 accessors *)
Definition zd_year (d : zdate) : Z := Z.of_N (N.shiftr (N.land (zd_date d) 0xFE00) 9 + 1980).
Definition zd_month (d : zdate) : N := N.shiftr (N.land (zd_date d) 0x1E0) 5.
Definition zd_day (d : zdate) : N := N.land (zd_date d) 0x1F.
Definition zd_hour (d : zdate) : N := N.shiftr (N.land (zd_time d) 0xF800) 11.
Definition zd_minute (d : zdate) : N := N.shiftr (N.land (zd_time d) 0x7E0) 5.
Definition zd_second (d : zdate) : N := N.shiftl (N.land (zd_time d) 0x1F) 1.

(** two's complement wrap to i32 *)
Definition wrap_i32 (z : Z) : Z := ((z + 2147483648) mod 4294967296 - 2147483648)%Z.

(** [year - 1980] on i32 *)
Definition isub1980 (c : config) (y : Z) : res Z :=
  if (-2147483648 <=? y - 1980)%Z then Ok (y - 1980)%Z
  else if overflow_checks c then Panic POverflow else Ok (wrap_i32 (y - 1980)).

(** date/builder.rs 28-32 [year]: [(((year - 1980) << 9) & 0xFE00)], OR-ed in. The conversion
    to u16 cannot fail because of the mask. *)
Definition zb_year (c : config) (d : zdate) (year : Z) : res zdate :=
  let? y := isub1980 c year in
  let v := Z.to_N (Z.land (wrap_i32 (Z.shiftl y 9)) 0xFE00) in
  Ok {| zd_date := N.lor (zd_date d) v; zd_time := zd_time d |}.

(** date/builder.rs 35-69; shifts are on u32, so high bits fall off before the mask. *)
Definition zb_month (d : zdate) (m : N) : zdate :=
  {| zd_date := N.lor (zd_date d) (N.land (as_u32 (N.shiftl m 5)) 0x1E0); zd_time := zd_time d |}.
Definition zb_day (d : zdate) (x : N) : zdate :=
  {| zd_date := N.lor (zd_date d) (N.land x 0x1F); zd_time := zd_time d |}.
Definition zb_hour (d : zdate) (x : N) : zdate :=
  {| zd_date := zd_date d; zd_time := N.lor (zd_time d) (N.land (as_u32 (N.shiftl x 11)) 0xF800) |}.
Definition zb_minute (d : zdate) (x : N) : zdate :=
  {| zd_date := zd_date d; zd_time := N.lor (zd_time d) (N.land (as_u32 (N.shiftl x 5)) 0x7E0) |}.
Definition zb_second (d : zdate) (x : N) : zdate :=
  {| zd_date := zd_date d; zd_time := N.lor (zd_time d) (N.land (N.shiftr x 1) 0x1F) |}.

(** A UTC calendar instant as chrono exposes it: components plus nanoseconds are irrelevant. *)
Record instant := { i_year : Z; i_month : N; i_day : N; i_hour : N; i_minute : N; i_second : N }.

(** date/mod.rs 77-90 [From<&DateTime<Utc>>] ([from_chrono]) *)
Definition zd_from_chrono (c : config) (i : instant) : res zdate :=
  let? d := zb_year c zdate_default (i_year i) in
  Ok (zb_second (zb_minute (zb_hour (zb_day (zb_month d (i_month i)) (i_day i)) (i_hour i)) (i_minute i)) (i_second i)).

Definition leap (y : Z) : bool :=
  ((y mod 4 =? 0) && (negb (y mod 100 =? 0) || (y mod 400 =? 0)))%Z.
Definition days_in_month (y : Z) (m : N) : N :=
  if (m =? 2) then (if leap y then 29 else 28)
  else if (m =? 4) || (m =? 6) || (m =? 9) || (m =? 11) then 30 else 31.

(** chrono [Utc.with_ymd_and_hms] (external): a single result iff the components are a valid
    proleptic Gregorian date and a time of day; never ambiguous in UTC. *)
Definition with_ymd_and_hms (y : Z) (mo d h mi s : N) : option instant :=
  if (1 <=? mo) && (mo <=? 12) && (1 <=? d) && (d <=? days_in_month y mo)
     && (h <? 24) && (mi <? 60) && (s <? 60)
  then Some {| i_year := y; i_month := mo; i_day := d; i_hour := h; i_minute := mi; i_second := s |}
  else None.

(** date/mod.rs 93-98 ([as_chrono]) *)
Definition zd_as_chrono (d : zdate) : option instant :=
  with_ymd_and_hms (zd_year d) (zd_month d) (zd_day d) (zd_hour d) (zd_minute d) (zd_second d).
