(** Specification used by C55: the order of the sections of a stream. *)
From Verif Require Import Base CodesModel.

(** The tags in front of the sections and values of a stream (the signature has the form of a
    section, too): a marker byte with the tag above and the wire type in the three lowest bits,
    a base-128 number, and that many bytes if the wire type is 2. *)
Fixpoint section_tags (fuel : nat) (l : list Z) : list Z :=
  match fuel, l with
  | S f, marker :: r =>
      match decode_base128 r with
      | BOk n r' => Z.shiftr marker 3 :: section_tags f (if Z.land marker 7 =? 2 then skipn (Z.to_nat n) r' else r')
      | _ => []
      end
  | _, _ => []
  end.

(** No metadata section (3) behind the DC section (7). *)
Definition metadata_first (D : list Z) : Prop := forall a b, section_tags (length D) D = a ++ 7 :: b -> ~ In 3 b.
