(** Signature, header section and the size bookkeeping that follows it. *)
From Verif Require Import Base CodesModel Stream.

(** * Signature *)

(** c/common/constants.cc / brunsli_decode.cc:74-77: the six signature bytes. *)
Definition signature : list Z := [10; 4; 66; 210; 213; 78].

(** brunsli_decode.cc:74-81, IsBrunsli. *)
Definition is_brunsli (data : list Z) : bool :=
  (6 <=? length data)%nat && list_eqb (firstn 6 data) signature.

(** brunsli_decode.cc:1096-1110, VerifySignature at the start of the stream:
    needs six visible bytes. *)
Inductive sig_result := SigOk | SigBad | SigMore.
Definition verify_signature (visible : list Z) : sig_result :=
  if (length visible <? 6)%nat then SigMore
  else if list_eqb (firstn 6 visible) signature then SigOk else SigBad.

(** brunsli_encode.cc:795-802, EncodeSignature into an empty buffer of [cap] bytes. *)
Definition encode_signature (cap : Z) : option (list Z) :=
  if cap <? 6 then None else Some signature.

(** * Sections *)

(** c/common/constants.h:88-94, SectionMarker and ValueMarker. *)
Definition section_marker (tag : Z) : Z := tag * 8 + 2.
Definition value_marker (tag : Z) : Z := tag * 8.

(** brunsli_encode.cc:966-995, EncodeSection: marker, size in [size_bytes] base-128
    digits, payload.  The buffer capacity is not modelled here (see Bypass). *)
Definition encode_section (tag : Z) (size_bytes : nat) (payload : list Z) : option (list Z) :=
  if 0 <? Z.shiftr (Z.of_nat (length payload)) (7 * Z.of_nat size_bytes) then None
  else Some (section_marker tag
               :: encode_base128_fix (Z.of_nat (length payload)) size_bytes ++ payload).

Definition mem (t : Z) (met : list Z) : bool := existsb (Z.eqb t) met.

(** brunsli_decode.cc:1042-1068, ReadTag.  [met]: the tags seen so far (a bit mask in
    the code).  The continuation gets the tag, "length delimited?", the new set. *)
Definition read_tag {A} (met : list Z) (k : Z -> bool -> list Z -> bprog A) : bprog A :=
  BByte (fun marker =>
    let tag := Z.shiftr marker 3 in
    if (tag =? 0) || (15 <? tag) then BFail else
    let w := Z.land marker 7 in
    if negb ((w =? 0) || (w =? 2)) then BFail else
    if mem tag met then BFail else k tag (w =? 2) (tag :: met)).

(** * Header *)

(** Sampling factors (h, v) of the components. *)
Definition samplings := list (Z * Z).

(** brunsli_encode.cc:782-793, FrameTypeCode, 32-bit. *)
Fixpoint frame_type_code (comps : samplings) (n : nat) (shift : Z) : Z :=
  match comps, n with
  | (h, v) :: r, S m =>
      Z.lor (Z.lor (Z.shiftl (h - 1) (shift + 4)) (Z.shiftl (v - 1) shift) mod 2 ^ 32)
            (frame_type_code r m (shift + 8))
  | _, _ => 0
  end.

(** brunsli_encode.cc:804-807, EncodeValue. *)
Definition encode_value (tag v : Z) : list Z := value_marker tag :: encode_base128 v.

(** brunsli_encode.cc:809-838, EncodeHeader. *)
Definition encode_header (width height version : Z) (comps : samplings) : option (list Z) :=
  let is_fallback := Z.land version 1 =? 1 in
  if is_fallback && negb (version =? 1) then None else
  if (negb is_fallback && ((width =? 0) || (height =? 0)))
     || (length comps =? 0)%nat || (4 <? length comps)%nat then None else
  if negb (version / 8 =? 0) then None else
  let version_comp := Z.lor (Z.of_nat (length comps) - 1) (Z.shiftl version 2) in
  Some (encode_value 1 width ++ encode_value 2 height ++ encode_value 3 version_comp
        ++ encode_value 4 (frame_type_code comps 4 0)).

(** What the header fixes about the image (brunsli_decode.cc:1171-1258,
    UpdateSubsamplingDerivatives 2201-2223). *)
Record grid := mkGrid {
  g_max_h : Z; g_max_v : Z; g_mcu_rows : Z; g_mcu_cols : Z;
  g_blocks : list (Z * Z)      (* width and height in blocks, per component *) }.
Inductive header :=
| HFallback
| HImage (width height version : Z) (legacy : bool) (comps : samplings) (g : grid).

(** brunsli_decode.cc:84, DivCeil. *)
Definition div_ceil (a b : Z) : Z := (a + b - 1) / b.

(** brunsli_decode.cc:2201-2223, UpdateSubsamplingDerivatives; [None] = false.  The
    maximum starts at 1 (jpeg_data.h:217); [num_blocks] is 32 bits wide. *)
Definition max_samp (f : Z * Z -> Z) (comps : samplings) : Z :=
  fold_left (fun m c => Z.max m (f c)) comps 1.
Definition update_subsampling (width height : Z) (comps : samplings) : option grid :=
  let mh := max_samp fst comps in
  let mv := max_samp snd comps in
  let rows := div_ceil height (mv * 8) in
  let cols := div_ceil width (mh * 8) in
  let blocks := map (fun c => (cols * fst c, rows * snd c)) comps in
  if forallb (fun b => (fst b * snd b) mod 2 ^ 32 <=? 2 ^ 21) blocks
  then Some (mkGrid mh mv rows cols blocks) else None.

(** brunsli_decode.cc:1228-1245: the subsampling code, four bits per factor. *)
Fixpoint decode_samplings (n : nat) (code : Z) : samplings :=
  match n with
  | O => []
  | S m =>
      let v := Z.land code 15 + 1 in
      let code1 := Z.shiftr code 4 in
      let h := Z.land code1 15 + 1 in
      (h, v) :: decode_samplings m (Z.shiftr code1 4)
  end.

(** brunsli_decode.cc:1171-1258, FINALE.  [met]: tags of the items, [vals]: the 16
    values, zero where no value was read (InternalState is value-initialised).
    [~0x7u] is a 32-bit mask, so bits 32 and above of the 64-bit version are not
    tested (1190); the stored version is the cast to int (1177), here the low 32
    bits. *)
Definition header_finale (met : list Z) (vals : list Z) : option header :=
  if negb (mem 3 met) then None else
  let vc := nth 3 vals 0 in
  let version := Z.shiftr vc 2 in
  if version =? 1 then Some HFallback else
  if negb (Z.land version 1 =? 0) then None else
  if negb (Z.land version (2 ^ 32 - 8) =? 0) then None else
  let legacy := Z.land version 2 =? 0 in
  if negb (mem 1 met) then None else
  let width := nth 1 vals 0 in
  if negb (mem 2 met) then None else
  let height := nth 2 vals 0 in
  if (width =? 0) || (height =? 0) then None else
  if (65535 <? width) || (65535 <? height) then None else
  let n := Z.to_nat (Z.land vc 3 + 1) in
  if negb (mem 4 met) then None else
  let comps := decode_samplings n (nth 4 vals 0) in
  if negb (forallb (fun c => (fst c <=? 15) && (snd c <=? 15)) comps) then None else
  match update_subsampling width height comps with
  | None => None
  | Some g => Some (HImage width height (version mod 2 ^ 32) legacy comps g)
  end.

(** brunsli_decode.cc:1130-1169, ITEM_READ_TAG .. ITEM_READ_VALUE.  A known field
    with a length-delimited wire type only *records* an error (1148-1150: the result
    of Fail is dropped) and is skipped like an unknown one.  The loop ends only when
    the position equals the section end.  At most 15 distinct tags exist, so the
    16th ReadTag always fails and 16 rounds are enough. *)
Fixpoint header_items (fuel : nat) (send : Z) (met vals : list Z) : bprog header :=
  BPos (fun pos =>
    if Z.of_nat pos =? send then
      match header_finale met vals with Some h => BRet h | None => BFail end
    else
      match fuel with
      | O => BFail
      | S f =>
          read_tag met (fun tag is_section met' =>
            if is_section then
              BBase128 (fun len => BBytes [] len (fun _ => header_items f send met' vals))
            else
              BBase128 (fun v => header_items f send met' (upd vals (Z.to_nat tag) v)))
      end).

(** brunsli_decode.cc:1116-1132: the header must be the first section; the section
    tags met so far are the signature's only. *)
Definition decode_header : bprog header :=
  read_tag [1] (fun tag is_section _ =>
    if negb (tag =? 2) || negb is_section then BFail else
    BBase128 (fun size => BPos (fun p => header_items 16 (Z.of_nat p + size) [] (repeat 0 16)))).
