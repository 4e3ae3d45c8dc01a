(** The stream grammar: signature, header, then either the original file or a
    sequence of sections (c/dec/brunsli_decode.cc). *)
From Verif Require Import Base CodesModel Stream Machine HeaderModel.

(** The section bodies are a parameter here (see Decoder.v for the real ones): the
    image under construction, the state of the body being decoded, and one call.
    [si_call tag n img view s avail]. *)
Record bodies := mkBodies {
  bo_img : Type;
  bo_state : Type;
  bo_start : Z -> Z -> Z -> bool -> samplings -> grid -> bo_img;
  bo_init : Z -> nat -> bo_img -> bo_state;
  bo_call : Z -> nat -> bo_img -> list Z -> bo_state -> nat -> res bo_state bo_img;
  bo_pos : bo_state -> nat }.

(** Result of a successful parse. *)
Inductive outcome (X : Type) := OImage (x : X) | OOriginal (data : list Z).
Arguments OImage {X} x.
Arguments OOriginal {X} data.

(** brunsli_decode.cc:63-68, kKnownSectionTags. *)
Definition known_tag (tag : Z) : bool := (1 <=? tag) && (tag <=? 9).

(** brunsli_decode.cc:1978-2044, DecodeOriginalJpg.  Whether the payload is copied or
    only pointed at makes no difference here; an empty payload is the null pointer
    in the code. *)
Definition decode_original : bprog (list Z) :=
  read_tag [2; 1] (fun tag is_section _ =>
    if negb (tag =? 9) || negb is_section then BFail
    else BBase128 (fun size => BBytes [] size (fun data => BRet data))).

(** brunsli_decode.cc:2046-2096, ParseSection: [None] for a skipped value, otherwise tag
    and length of the section entered.  (The exit for a missing tag after AC data
    is only reachable when sections are skipped on purpose, skip_tags <> 0, which
    the decoder does not do.) *)
Definition parse_section (met : list Z) : bprog (option (Z * Z) * list Z) :=
  read_tag met (fun tag is_section met' =>
    if is_section then BBase128 (fun n => BRet (Some (tag, n), met'))
    else if known_tag tag then BFail
    else BBase128 (fun _ => BRet (None, met'))).

(** brunsli_decode.cc:2126-2173: what must have been met before a section, and the
    sections that are read word by word.  Tags 1, 2 and 9 cannot occur: they are
    already met (1106, 1207). *)
Definition admissible (tag n : Z) (met : list Z) : bool :=
  if tag =? 3 then true
  else if tag =? 4 then true
  else if tag =? 5 then mem 4 met
  else if tag =? 6 then mem 4 met
  else if tag =? 7 then mem 6 met && mem 5 met && Z.even n
  else if tag =? 8 then mem 7 met && Z.even n
  else false.

(** brunsli_decode.cc:2271-2298 with ProcessSection 2098-2196: alternate between
    SECTION and SECTION_BODY until the AC data has been read.  Every round uses up one of
    15 tags, so 16 rounds are enough. *)
Fixpoint read_sections (B : bodies) (fuel : nat) (met : list Z) (img : bo_img B) : mprog (bo_img B) :=
  match fuel with
  | O => MFail
  | S f =>
      MB (parse_section met) (fun r =>
        let met' := snd r in
        match fst r with
        | None => read_sections B f met' img
        | Some (tag, n) =>
            if known_tag tag then
              if admissible tag n met' then
                MBegin (Z.to_nat n) (bo_call B tag (Z.to_nat n) img) (bo_pos B) (bo_init B tag (Z.to_nat n) img)
                  (fun img' => if tag =? 8 then MRet img' else read_sections B f met' img')
              else MFail
            else
              MB (BBytes [] n (fun _ => BRet tt)) (fun _ => read_sections B f met' img)
        end)
  end.

Fixpoint mmap {X Y} (f : X -> Y) (p : mprog X) : mprog Y :=
  match p with
  | MRet x => MRet (f x)
  | MFail => MFail
  | MPeek n k => MPeek n (fun l => mmap f (k l))
  | MB q k => MB q (fun a => mmap f (k a))
  | MBegin n call spos s k => MBegin n call spos s (fun y => mmap f (k y))
  | MIn start n call spos s k => MIn start n call spos s (fun y => mmap f (k y))
  end.

(** brunsli_decode.cc:2271-2298, the whole stream from Stage::SIGNATURE to Stage::DONE. *)
Definition decode_stream (B : bodies) : mprog (outcome (bo_img B)) :=
  MPeek 6 (fun sig =>
    match verify_signature sig with
    | SigOk =>
        MB decode_header (fun h =>
          match h with
          | HFallback => MB decode_original (fun data => MRet (OOriginal data))
          | HImage w h version legacy comps g =>
              mmap OImage (read_sections B 16 [9; 2; 1] (bo_start B w h version legacy comps g))
          end)
    | _ => MFail
    end).

(** * States between calls of DoProcessJpeg and its result *)

Inductive status := StOk | StNeed | StInvalid.
Inductive pstate (X : Type) :=
| PRun (p : mprog X) (pos : nat)      (* some stage before DONE, suspended *)
| PDone (x : X) (pos : nat)           (* Stage::DONE *)
| PError.                              (* Stage::ERROR, not NOT_ENOUGH_DATA *)
Arguments PRun {X} p pos.
Arguments PDone {X} x pos.
Arguments PError {X}.

(** brunsli_decode.cc:2294-2301: nothing may follow the stream. *)
Definition finish {X} (x : X) (q avail : nat) : status * pstate X :=
  if (q =? avail)%nat then (StOk, PDone x q) else (StInvalid, PError).

Definition do_process {X} (D : list Z) (s : pstate X) (avail : nat) : status * pstate X :=
  match s with
  | PRun p pos =>
      match mrun D p pos avail with
      | RDone x q => finish x q avail
      | RFail => (StInvalid, PError)
      | RMore (p', pos') => (StNeed, PRun p' pos')
      end
  | PDone x q => finish x q avail
  | PError => (StInvalid, PError)
  end.

(** brunsli_decode.cc:2459-2468, BrunsliDecodeJpeg: everything is visible at once
    (ProcessJpeg with an empty buffer passes the data through). *)
Definition decode_once {X} (p : mprog X) (D : list Z) : status * option X :=
  match do_process D (PRun p 0) (length D) with
  | (StOk, PDone x _) => (StOk, Some x)
  | (st, _) => (st, None)
  end.
