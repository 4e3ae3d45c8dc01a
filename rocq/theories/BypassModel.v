(** The bypass encoder, which stores the file as it is
    (c/enc/brunsli_encode.cc:966-995, 1534-1582), with the caller's buffer as a memory
    in which a write outside is a distinct outcome. *)
From Verif Require Import Base CodesModel HeaderModel.

(** Result of code that writes to a caller's buffer. *)
Inductive wres (A : Type) := WOut (* a byte outside the buffer is written *) | WRefused (* the function returns false *) | WOk (a : A).
Arguments WOut {A}.
Arguments WRefused {A}.
Arguments WOk {A} a.
Definition wbind {A B} (a : wres A) (f : A -> wres B) : wres B :=
  match a with WOk x => f x | WOut => WOut | WRefused => WRefused end.

(** Writing [bs] at [pos] of the buffer. *)
Definition put (mem : list Z) (pos : nat) (bs : list Z) : wres (list Z) :=
  if (pos + length bs <=? length mem)%nat
  then WOk (firstn pos mem ++ bs ++ skipn (pos + length bs) mem) else WOut.

(** brunsli_encode.cc:795-802, EncodeSignature; [cap] is the size the caller states. *)
Definition put_signature (cap : Z) (mem : list Z) (pos : nat) : wres (list Z * nat) :=
  if (cap <? 6) || (cap - 6 <? Z.of_nat pos) then WRefused
  else wbind (put mem pos signature) (fun m => WOk (m, (pos + 6)%nat)).

(** A section writer (EncodeSectionDataFn): gets the room it is told it has (a size_t),
    answers with the payload or refuses. *)
Definition payload_writer := Z -> option (list Z).

(** brunsli_encode.cc:966-995, EncodeSection.  [len - *pos] is a size_t subtraction.
    The writer puts its bytes at [*pos] without a further check. *)
Definition put_section (tag : Z) (w : payload_writer) (size_bytes : nat) (cap : Z) (mem : list Z) (pos : nat) : wres (list Z * nat) :=
  wbind (put mem pos [section_marker tag]) (fun m1 =>
  let pos1 := (pos + 1 + size_bytes)%nat in
  let room := (cap - Z.of_nat pos1) mod 2 ^ 64 in
  match w room with
  | None => WRefused
  | Some p =>
      wbind (put m1 pos1 p) (fun m2 =>
      if 0 <? Z.shiftr (Z.of_nat (length p)) (7 * Z.of_nat size_bytes) then WRefused
      else wbind (put m2 (pos + 1) (encode_base128_fix (Z.of_nat (length p)) size_bytes)) (fun m3 =>
      WOk (m3, (pos1 + length p)%nat)))
  end).

(** brunsli_encode.cc:1541-1550, EncodeOriginalJpg; [None] is a null pointer. *)
Definition original_writer (data : option (list Z)) : payload_writer := fun room =>
  match data with
  | None => None
  | Some d => if room <? Z.of_nat (length d) then None else Some d
  end.

(** What ReadJpeg in header mode found (an input here): width, height and sampling
    factors, or nothing if it failed (1559-1566). *)
Definition seen_header := option (Z * Z * samplings).
Definition bypass_header (h : seen_header) : option (list Z) :=
  match h with
  | Some (w, hh, comps) => encode_header w hh 1 comps
  | None => encode_header 0 0 1 [(1, 1)]
  end.

(** brunsli_encode.cc:1552-1582, BrunsliEncodeJpegBypass into the buffer [mem] of which the
    caller says it has [cap] bytes: the bytes of the result. *)
Definition encode_bypass (h : seen_header) (data : option (list Z)) (cap : Z) (mem : list Z) : wres (list Z) :=
  wbind (put_signature cap mem 0) (fun '(m, pos) =>
  wbind (put_section 2 (fun _ => bypass_header h) 1 cap m pos) (fun '(m, pos) =>
  let n := match data with Some d => length d | None => O end in
  wbind (put_section 9 (original_writer data) (base128_size (Z.of_nat n)) cap m pos) (fun '(m, pos) =>
  WOk (firstn pos m)))).

(** brunsli_encode.cc:1535-1538, GetBrunsliBypassSize (the sum is below 2^64). *)
Definition bypass_size (jpg_size : Z) : Z := jpg_size + 6 + 30.
