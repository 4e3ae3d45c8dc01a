(** The wrappers for browsers (wasm/codec.cc) and for Java (java/dev/brunsli/wrapper/codec_jni.cc). *)
From Verif Require Import Base JpegModel JBitModel JFileModel Stream Machine ContainerModel MetaModel DriverModel Decoder Encoder OutputModel SerialModel ProgressModel ToolModel.

(** * Whole files *)

(** A null pointer, a string, an exception, undefined behaviour. *)
Inductive answer := Null | Str (s : list Z) | Throws | Undef.

(** wasm/codec.cc:16-39, BrunsliToJpeg; the lambda takes everything.  codec_jni.cc:40-57 is the same, up to ToByteArray. *)
Definition brunsli_to_jpeg (B : brotli) (data : list Z) : answer :=
  match brunsli_decode_jpeg B data with
  | (StOk, Some (OImage j)) => match JFileModel.write_jpeg j with JOk out => Str out | JErr => Null | JUB => Undef end
  | (StOk, Some (OOriginal d)) => Str d
  | _ => Null
  end.

(** wasm/codec.cc:123-143, JpegToBrunsli.  [size] stands for GetMaximumBrunsliEncodedSize: with 32-bit size_t its sums may wrap around, so that
    nothing is assumed about its value.  std::string::resize throws above max_size(), at(0) throws for an empty string. *)
Definition jpeg_to_brunsli (O : oracle) (size : jpeg -> Z) (data : list Z) : answer :=
  match read_jpeg RAll data with
  | JOk j =>
      if 2 ^ 63 <=? size j then Throws else
      if size j =? 0 then Throws else
      match brunsli_encode_jpeg O j (size j) with Some out => Str out | None => Null end
  | JErr => Null
  | JUB => Undef
  end.

(** codec_jni.cc:19-25, ToByteArray: jsize is an int; NewByteArray gives null for a negative size. *)
Definition to_byte_array (data : list Z) : answer :=
  let n := to_int (Z.of_nat (length data)) in
  if n <? 0 then Null else Str (firstn (Z.to_nat n) data).

(** codec_jni.cc:33-60, nativeDecode; [input] is None for a buffer that is not direct. *)
Definition native_decode (B : brotli) (input : option (list Z)) : answer :=
  match input with
  | None => Null
  | Some data => match brunsli_to_jpeg B data with Str out => to_byte_array out | a => a end
  end.

(** codec_jni.cc:62-83, nativeEncode; [&output[0]] is defined for the empty string, too. *)
Definition native_encode (O : oracle) (size : jpeg -> Z) (input : option (list Z)) : answer :=
  match input with
  | None => Null
  | Some data =>
      match read_jpeg RAll data with
      | JOk j =>
          if 2 ^ 63 <=? size j then Throws else
          match brunsli_encode_jpeg O j (size j) with Some out => to_byte_array out | None => Null end
      | JErr => Null
      | JUB => Undef
      end
  end.

(** * The streaming instance *)

(** wasm/codec.cc:51, kBufferSize. *)
Definition buffer_size : nat := Z.to_nat 65536.

(** wasm/codec.cc:81-97, BrunsliDecoderProcess: result, the bytes at [out], the decoder.  [input]: the in_len bytes at [in].  What Decode has not
    taken of them is forgotten.  None: in_len is larger than the buffer. *)
Definition process (B : brotli) (D : list Z) (d : xdecoder B D) (input : list Z) : option (Z * list Z * xdecoder B D) :=
  if (buffer_size <? length input)%nat then None else
  let? a := xdecode B D d input buffer_size in
  let '(s, c, o, d1) := a in
  Some (match s with NeedsInput | NeedsOutput => 0 | Done => 1 | Err => 2 end, o, d1).

(** A client as the comment at wasm/codec.cc:68-80 asks for: it hands over the stream [D] in pieces of [ks] bytes (fewer at the end), takes all the
    output after each call and goes on while the result is 0.  [T]: how much was handed over. *)
Fixpoint session (B : brotli) (D : list Z) (d : xdecoder B D) (T : nat) (ks : list nat) : option (Z * list Z * xdecoder B D) :=
  match ks with
  | [] => Some (0, [], d)
  | k :: r =>
      let input := firstn k (skipn T D) in
      let? a := process B D d input in
      let '(code, o, d1) := a in
      if code =? 0 then
        let? b := session B D d1 (T + length input) r in
        let '(code2, o2, d2) := b in Some (code2, o ++ o2, d2)
      else Some (code, o, d1)
  end.

(** * The memory of an instance *)

(** Blocks of memory by address, with the way they were allocated; None: released. *)
Inductive how := ByNew | ByNewArray | ByMalloc.
Definition heap := list (option how).
Definition alloc (h : heap) (w : how) : heap * nat := (h ++ [Some w], length h).
(** delete is for new, delete[] for new[]; everything else is undefined ([expr.delete]/2). *)
Definition how_eqb (a b : how) : bool := match a, b with ByNew, ByNew | ByNewArray, ByNewArray | ByMalloc, ByMalloc => true | _, _ => false end.
Definition release (h : heap) (p : nat) (w : how) : option heap :=
  match nth p h None with
  | Some w' => if how_eqb w w' then Some (firstn p h ++ None :: skipn (S p) h) else None
  | None => None
  end.

Record instance := mkInstance { i_self : nat; i_decoder : nat; i_in : nat; i_out : nat }.
(** wasm/codec.cc:53-66, BrunsliDecoderInit. *)
Definition decoder_init (h : heap) : heap * instance :=
  let '(h1, a) := alloc h ByNewArray in
  let '(h2, b) := alloc h1 ByNew in
  let '(h3, c) := alloc h2 ByMalloc in
  let '(h4, d) := alloc h3 ByMalloc in (h4, mkInstance a b c d).
(** wasm/codec.cc:99-109, BrunsliDecoderCleanup. *)
Definition decoder_cleanup (h : heap) (i : option instance) : option heap :=
  match i with
  | None => Some h
  | Some i =>
      let? h1 := release h (i_decoder i) ByNew in
      let? h2 := release h1 (i_in i) ByNewArray in
      let? h3 := release h2 (i_out i) ByNewArray in
      release h3 (i_self i) ByNewArray
  end.
