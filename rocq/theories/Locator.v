(** base/read/io/locator.rs: finding the end of central directory record. *)
From Verif Require Import Base Headers IO.

(** locator.rs 29-35 *)
Definition BUFFER_SIZE : N := 2048.
Definition EOCDR_UPPER_BOUND : N := EOCDR_LENGTH.
Definition EOCDR_LOWER_BOUND : N := EOCDR_UPPER_BOUND + SIGNATURE_LENGTH + 65535.

(** locator.rs 91-105 [reverse_search_buffer], inner loop: does [signature], whose reversed
    remainder is [rsig], end at index [i] of [buffer]?
    RMatch: all bytes equal; RMiss: [continue 'outer]; RStop: [break 'outer]. *)
Inductive rsearch := RMatch | RMiss | RStop.
Fixpoint match_back (buffer : bytes) (rsig : bytes) (index sidx : N) : rsearch :=
  match rsig with
  | [] => RMatch
  | sb :: rest =>
    if sidx <=? index then
      match drop (index - sidx) buffer with
      | b :: _ => if b2n b =? b2n sb then match_back buffer rest index (sidx + 1) else RMiss
      | [] => RMiss (* out of range: cannot happen, index < len buffer *)
      end
    else RStop
  end.

(** outer loop: indices len-1, ..., 0 *)
Fixpoint search_down (buffer rsig : bytes) (count : nat) : option N :=
  match count with
  | O => None
  | S c =>
    let index := N.of_nat c in
    match match_back buffer rsig index 0 with
    | RMatch => Some index
    | RMiss => search_down buffer rsig c
    | RStop => None
    end
  end.
Definition reverse_search_buffer (buffer signature : bytes) : option N :=
  search_down buffer (rev signature) (length buffer).

(** locator.rs 59-67: fill the 2048-byte buffer as far as possible. *)
Fixpoint fill_loop (fuel : nat) (want : N) : SM source bytes :=
  match fuel with
  | O => lift (Panic PFuel)
  | S f =>
    if want =? 0 then ret []
    else b <- read want ;;
         if len b =? 0 then ret []
         else r <- fill_loop f (want - len b) ;; ret (b ++ r)
  end.
Definition fill : SM source bytes :=
  fun s => fill_loop (S (S (length (s_sched s)))) BUFFER_SIZE s.

(** locator.rs 57-83, the outer loop; [N] subtraction saturates like [saturating_sub]. *)
Fixpoint eocdr_loop (fuel : nat) (length position : N) : SM source N :=
  match fuel with
  | O => lift (Panic PFuel)
  | S f =>
    buffer <- fill ;;
    match reverse_search_buffer buffer (to_le 4 EOCDR_SIGNATURE) with
    | Some match_index => ret (position + (match_index + 1))
    | None =>
      if (position =? 0) || (position <=? length - EOCDR_LOWER_BOUND)
      then fail UnableToLocateEOCDR
      else
        let position' := position - (BUFFER_SIZE - SIGNATURE_LENGTH) in
        seek_start position' ;;; eocdr_loop f length position'
    end
  end.

(** locator.rs 46-84 [eocdr]. At most 33 windows are ever examined; 64 is a safe bound on the
    iterations (proved sufficient). *)
Definition eocdr_locate : SM source N :=
  length <- seek_end ;;
  let position := length - BUFFER_SIZE in
  seek_start position ;;;
  eocdr_loop 64 length position.
