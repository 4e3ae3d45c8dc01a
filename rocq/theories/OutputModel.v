(** The output side of the decoder: the queue of pending chunks, SerializeJpeg,
    WriteJpeg, BrunsliDecoder::Decode and the C entry points
    (c/dec/jpeg_data_writer.cc, c/dec/brunsli_decode.cc, c/dec/decode.cc,
    c/enc/encode.cc). *)
From Verif Require Import Base ContainerModel DriverModel.

(** jpeg_data_writer.cc:945-961, PushOutput: bytes delivered, remaining queue,
    remaining space. *)
Fixpoint push_output (q : list (list Z)) (cap : nat) : list Z * list (list Z) * nat :=
  match q with
  | [] => ([], [], cap)
  | c :: r =>
      if (cap =? 0)%nat then ([], q, O)
      else if (length c <=? cap)%nat then
        let '(o, q', cap') := push_output r (cap - length c) in (c ++ o, q', cap')
      else (firstn cap c, skipn cap c :: r, O)
  end.

(** What the marker writers (SerializeSection 876-943) do is a parameter here: what they
    need to know about the parser ([sr_info]), their own state, how serialisation starts
    (992-1032), the marker list, and one section: new chunks, state, status. *)
Inductive start_result := SrWait | SrFallback (data : option (list Z)) | SrBad | SrMarkers.
Inductive sec_status := SecDone | SecNeedInput | SecError.
Record serializer := mkSer {
  sr_info : Type;
  sr_st : Type;
  sr_init : sr_st;
  sr_start : sr_info -> start_result;
  sr_markers : sr_info -> list Z;
  sr_section : sr_info -> sr_st -> Z -> list (list Z) * sr_st * sec_status }.

Inductive stage (T : Type) := GInit | GSection (idx : nat) (st : T) | GDone | GError.
Arguments GInit {T}.
Arguments GSection {T} idx st.
Arguments GDone {T}.
Arguments GError {T}.
Record sstate (R : serializer) := mkSS { ss_stage : stage (sr_st R); ss_queue : list (list Z) }.
Arguments mkSS {R} ss_stage ss_queue.
Arguments ss_stage {R} s.
Arguments ss_queue {R} s.

(** c/dec/state.h SerializationStatus. *)
Inductive sstatus := NeedsInput | NeedsOutput | Err | Done.

(** jpeg_data_writer.cc:1074-1080. *)
Definition done_status (q : list (list Z)) : sstatus := match q with [] => Done | _ => NeedsOutput end.

(** jpeg_data_writer.cc:1050-1072 and the final states; [out]: delivered so far. *)
Fixpoint serialize_sections (R : serializer) (info : sr_info R) (ms : list Z) (idx : nat) (st : sr_st R)
    (q : list (list Z)) (cap : nat) (out : list Z) : sstatus * list Z * sstate R :=
  match ms with
  | [] => (done_status q, out, mkSS GDone q)
  | m :: r =>
      let '(chunks, st', s) := sr_section R info st m in
      match s with
      | SecError => (Err, out, mkSS GError (q ++ chunks))
      | SecNeedInput =>
          let '(o, q', _) := push_output (q ++ chunks) cap in
          (NeedsInput, out ++ o, mkSS (GSection idx st') q')
      | SecDone =>
          let '(o, q', cap') := push_output (q ++ chunks) cap in
          serialize_sections R info r (S idx) st' q' cap' (out ++ o)
      end
  end.

(** jpeg_data_writer.cc:988-1093, SerializeJpeg.  EncodeSOI 306-309 emits FF D8. *)
Definition serialize (R : serializer) (info : sr_info R) (ss : sstate R) (cap : nat) : sstatus * list Z * sstate R :=
  match ss_stage ss with
  | GError => (Err, [], ss)
  | g =>
      let '(o, q, cap') := push_output (ss_queue ss) cap in
      match g with
      | GInit =>
          match sr_start R info with
          | SrWait => (NeedsInput, o, mkSS GInit q)
          | SrFallback None => (Err, o, mkSS GError q)
          | SrFallback (Some d) => (NeedsOutput, o, mkSS GDone (q ++ [d]))
          | SrBad => (Err, o, mkSS GError q)
          | SrMarkers =>
              let '(o', q', cap'') := push_output (q ++ [[255; 216]]) cap' in
              serialize_sections R info (sr_markers R info) 0 (sr_init R) q' cap'' (o ++ o')
          end
      | GSection idx st => serialize_sections R info (skipn idx (sr_markers R info)) idx st q cap' o
      | GDone => (done_status q, o, mkSS GDone q)
      | GError => (Err, o, mkSS GError q)
      end
  end.

(** Calls with given buffer sizes; all that was delivered and the last status. *)
Fixpoint serialize_calls (R : serializer) (ss : sstate R) (st : sstatus) (calls : list (sr_info R * nat)) : sstatus * list Z * sstate R :=
  match calls with
  | [] => (st, [], ss)
  | (info, cap) :: r =>
      let '(st1, o, ss1) := serialize R info ss cap in
      let '(st2, o2, ss2) := serialize_calls R ss1 st1 r in (st2, o ++ o2, ss2)
  end.

(** brunsli_decode.cc:2509-2565, BrunsliDecoder::Decode: status, bytes taken, bytes
    delivered, new state. The serializer looks at the parser's state. *)
Section DecoderApi.
  Context {X : Type} (D : list Z) (R : serializer) (look : pstate X -> sr_info R).
  Definition decoder : Type := dstate (stream_parser X D) * sstate R.
  Definition decode_call (d : decoder) (ext : list Z) (cap : nat) : option (sstatus * nat * list Z * decoder) :=
    let? r := drive (stream_parser X D) (fst d) ext in
    let '(st, c, d1) := r in
    match st with
    | StInvalid => Some (Err, c, [], (d1, snd d))
    | _ =>
        let '(s, o, ss) := serialize R (look (d_st d1)) (snd d) cap in
        Some (s, c, o, (d1, ss))
    end.
End DecoderApi.

(** A sink: gets bytes and returns a number. *)
Record sink := mkSink { sk_state : Type; sk_call : sk_state -> list Z -> Z * sk_state }.

(** jpeg_data_writer.h:24-28, JPEGOutput::Write. *)
Definition sink_write (K : sink) (k : sk_state K) (o : list Z) : bool * sk_state K :=
  match o with
  | [] => (true, k)
  | _ => let '(r, k') := sk_call K k o in (r =? Z.of_nat (length o), k')
  end.

(** jpeg_data_writer.cc:970. *)
Definition write_buffer : nat := Z.to_nat 16384.

(** jpeg_data_writer.cc:967-984, WriteJpeg: result and the pieces handed to the sink.
    [None]: out of fuel. *)
Fixpoint write_jpeg (fuel : nat) (R : serializer) (info : sr_info R) (K : sink) (ss : sstate R) (k : sk_state K)
  : option (bool * list (list Z)) :=
  match fuel with
  | O => None
  | S f =>
      let '(st, o, ss') := serialize R info ss write_buffer in
      match st with
      | Err | NeedsInput => Some (false, [])
      | _ =>
          let '(ok, k') := sink_write K k o in
          if negb ok then Some (false, [o])
          else match st with
               | Done => Some (true, [o])
               | _ => let? r := write_jpeg f R info K ss' k' in Some (fst r, o :: snd r)
               end
      end
  end.

(** c/enc/encode.cc:18-37, EncodeBrunsli: [read] and [encode] stand for ReadJpeg and
    BrunsliEncodeJpeg. Result and the pieces handed to the sink. *)
Definition encode_brunsli {J} (read : list Z -> option J) (encode : J -> option (list Z)) (K : sink) (k : sk_state K) (input : list Z)
  : Z * list (list Z) :=
  match read input with
  | None => (0, [])
  | Some j =>
      match encode j with
      | None => (0, [])
      | Some out => let '(r, _) := sk_call K k out in ((if r =? 0 then 0 else 1), [out])
      end
  end.
