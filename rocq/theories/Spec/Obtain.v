(** The masks a program can get hold of with the safe API.  A mask is obtained by
    one of the constructors below from booleans, from vectors of other kinds (any
    contents) and from masks obtained before.  Casts to m128x1 from integers are
    left out (see C20). *)
From Coq Require Import ZArith List Bool.
From Verif.Model Require Import Base ScalarMask Bytes Tables Minimal Ops Cmp Cast Shuffle ShuffleDyn.
From Verif.Spec Require Import Spec.
Import ListNotations.
Open Scope Z_scope.

Inductive comparison_method := CmpEq | CmpNe | CmpLt | CmpLe | CmpGt | CmpGe.
Definition compare (c : comparison_method) : vty -> vec -> vec -> vec :=
  match c with
  | CmpEq => veq | CmpNe => vne | CmpLt => vlt | CmpLe => vle | CmpGt => vgt | CmpGe => vge
  end.

Inductive mask_operator := MaskAnd | MaskOr | MaskXor.
Definition operate (o : mask_operator) : vty -> vec -> vec -> vec :=
  match o with MaskAnd => mask_bitand | MaskOr => mask_bitor | MaskXor => mask_bitxor end.
Definition operate_vs (o : mask_operator) : vty -> vec -> bool -> vec :=
  match o with MaskAnd => mask_bitand_vs | MaskOr => mask_bitor_vs | MaskXor => mask_bitxor_vs end.
Definition operate_sv (o : mask_operator) : vty -> bool -> vec -> vec :=
  match o with MaskAnd => mask_bitand_sv | MaskOr => mask_bitor_sv | MaskXor => mask_bitxor_sv end.

(** [tg]: the target; [obtained t m]: the safe API can produce [m] of mask type [t]. *)
Inductive obtained (tg : target) : vty -> vec -> Prop :=
| by_new t cs m : mask_type t -> mask_new t cs = Some m -> obtained tg t m
| by_splat t c : mask_type t -> obtained tg t (mask_splat t c)
| by_default t : mask_type t -> obtained tg t (vdefault t)
| by_replace t m i c r : obtained tg t m -> mask_replace t m (Z.of_nat i) c = Ok r -> obtained tg t r
| by_not t m : obtained tg t m -> obtained tg t (mask_not t m)
| by_operator o t m m' : obtained tg t m -> obtained tg t m' -> obtained tg t (operate o t m m')
| by_operator_vs o t m c : obtained tg t m -> obtained tg t (operate_vs o t m c)
| by_operator_sv o t m c : obtained tg t m -> obtained tg t (operate_sv o t c m)
| by_comparison c t x y : vector_type t -> operand tg t x -> operand tg t y ->
    obtained tg (mask_of t) (compare c t x y)
| by_select tm t m x y r : vn tm = vn t -> obtained tg tm m -> obtained tg t x -> obtained tg t y ->
    select tm m x y = Ok r -> obtained tg t r
| by_shuffle sz t x y idx t' r : obtained tg t x -> obtained tg t y ->
    shuffle2 sz t x y idx = Some (t', r) -> obtained tg t' r
| by_shuffle_dyn sz t m ix r : obtained tg t m -> is_vector (V KUint (vb t) (vn t)) ix ->
    shuffle1_dyn tg sz t m ix = Ok r -> obtained tg t r
| by_cast e src x r : In e (cast_table (t_ptr tg)) -> In src (c_from e) ->
    mask_type (c_to e) -> c_to e <> m128x1 -> vector_type src -> operand tg src x ->
    cast (c_impl e) src (c_to e) x = Ok r -> obtained tg (c_to e) r
| by_from d src m r : In d (decls (t_ptr tg)) -> In src (d_from d) -> obtained tg src m ->
    from_vector src (d_ty d) m = Ok r -> obtained tg (d_ty d) r
| by_bits e src m : In e (bits_table (t_ptr tg)) -> In src (b_from e) ->
    mask_type (b_to e) -> operand tg src m ->
    obtained tg (b_to e) (into_bits (t_big_endian tg) src (b_to e) m)
| by_array t cs : mask_type t -> length cs = vn t ->
    obtained tg t (from_array (t_big_endian tg) t (map (smask_new (vb t)) cs))
with operand (tg : target) : vty -> vec -> Prop :=
| any_vector t x : vkind t <> KMask -> is_vector t x -> operand tg t x
| a_mask t m : obtained tg t m -> operand tg t m.
