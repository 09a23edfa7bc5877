(** The vertical math functions of float vectors: the wrappers of
    src/codegen/math/float/macros.rs around the external functions, and the methods of
    src/api/math/float/*.rs. *)
From Coq Require Import ZArith List Bool String.
From Verif.Model Require Import Base FloatLane Llvm Bytes Tables Minimal Ops Float MathTables.
Import ListNotations.
Open Scope Z_scope.

(** What the external functions compute: vector functions of one, two and three
    arguments, scalar functions of one and two, and the functions that return a pair of
    vectors.  The source only declares them; the theorems say what they need of them. *)
Record externals := {
  x_v1 : ext -> vec -> vec;
  x_v2 : ext -> vec -> vec -> vec;
  x_v3 : ext -> vec -> vec -> vec -> vec;
  x_s1 : ext -> Z -> Z;
  x_s2 : ext -> Z -> Z -> Z;
  x_vp : ext -> vec -> vec * vec
}.

(** Types with an implementation, in the order of the table (a missing one is a
    compile-time error). *)
Definition same_type (s t : vty) : bool :=
  kind_eqb (vkind s) (vkind t) && Nat.eqb (vb s) (vb t) && Nat.eqb (vn s) (vn t).
Fixpoint lookup (l : list (vty * impl)) (t : vty) : option impl :=
  match l with
  | [] => None
  | (s, i) :: l' => if same_type s t then Some i else lookup l' t
  end.

(** tanh_v*: define_tanh! (tanh.rs:15-34): the vector as an array, [Float::tanh] on
    every element. *)
Definition core_tanh (b : nat) : ext := Ex "Float::tanh" Core ETanh b 1.
Definition crate_tanh (X : externals) (be : bool) (f : ext) (v : vec) : vec :=
  transmute be (x_b f) (x_b f) (x_n f)
    (map (x_s1 X (core_tanh (x_b f))) (transmute be (x_b f) (x_b f) (x_n f) v)).

(** A call of the named function on a vector; the crate's own helpers are inlined. *)
Definition call1 (X : externals) (be : bool) (f : ext) (v : vec) : vec :=
  match x_lib f with
  | Crate => crate_tanh X be f v
  | _ => x_v1 X f v
  end.

(** [transmute($fun(transmute(v)))] for a vector of type [t]. *)
Definition as_arg (be : bool) (f : ext) (t : vty) (v : vec) : vec :=
  transmute be (vb t) (x_b f) (x_n f) v.
Definition as_res (be : bool) (f : ext) (t : vty) (v : vec) : vec :=
  transmute be (x_b f) (vb t) (vn t) v.
Definition wrapped1 (X : externals) (be : bool) (f : ext) (t : vty) (v : vec) : vec :=
  as_res be f t (call1 X be f (as_arg be f t v)).
Definition wrapped2 (X : externals) (be : bool) (f : ext) (t : vty) (v w : vec) : vec :=
  as_res be f t (x_v2 X f (as_arg be f t v) (as_arg be f t w)).
Definition wrapped3 (X : externals) (be : bool) (f : ext) (t : vty) (u v w : vec) : vec :=
  as_res be f t (x_v3 X f (as_arg be f t u) (as_arg be f t v) (as_arg be f t w)).

(** The unions { vec: V, halves: [H; 2] } and { vec: V, quarters: [Q; 4] } read at an
    array of [k] vectors of type [h], and written back; bytes past the end of a shorter
    member are not modelled (they would read as 0). *)
Definition vec_size (t : vty) : nat := (vb t * vn t)%nat.
Definition union_parts (be : bool) (t h : vty) (k : nat) (v : vec) : list vec :=
  map (of_image be (vb h) (vn h)) (groups k (vec_size h) (image be (vb t) v)).
Definition union_vec (be : bool) (t h : vty) (l : list vec) : vec :=
  of_image be (vb t) (vn t) (flat_map (image be (vb h)) l).

(** The union { vec: [V; 2], twice: T }: a vector beside an uninitialised one, read as a
    vector of type [T]; and element 0 of the array read from a vector of type [T]. *)
Definition union_twice (be : bool) (t tw : vty) (v junk : vec) : vec :=
  of_image be (vb tw) (vn tw) (image be (vb t) v ++ image be (vb t) junk).
Definition union_elem (be : bool) (t tw : vty) (k : nat) (v : vec) : vec :=
  of_image be (vb t) (vn t) (nth k (groups 2 (vec_size t) (image be (vb tw) v)) []).

(** impl_unary_! (macros.rs:4-121).  [junk] is what [mem::uninitialized()] returned. *)
Definition unary (X : externals) (be : bool) (junk : vec) (i : impl) (t : vty) (v : vec) : option vec :=
  match i with
  | IVec f => Some (wrapped1 X be f t v)                         (* 6-17 *)
  | IGen f => Some (wrapped1 X be f t v)                         (* 20-31 *)
  | IScalar sb sn f =>                                           (* 32-50 *)
      let scalars := transmute be (vb t) sb sn v in
      Some (transmute be sb (vb t) (vn t) (map (x_s1 X f) scalars))
  | IHalves h f =>                                               (* 52-73 *)
      let halves := union_parts be t h 2 v in
      Some (union_vec be t h [wrapped1 X be f h (nth 0 halves []);
                              wrapped1 X be f h (nth 1 halves [])])
  | IQuarter q f =>                                              (* 75-98 *)
      let quarters := union_parts be t q 4 v in
      Some (union_vec be t q [wrapped1 X be f q (nth 0 quarters []);
                              wrapped1 X be f q (nth 1 quarters []);
                              wrapped1 X be f q (nth 2 quarters []);
                              wrapped1 X be f q (nth 3 quarters [])])
  | ITwice tw f =>                                               (* 100-120 *)
      Some (union_elem be t tw 0 (wrapped1 X be f tw (union_twice be t tw v junk)))
  | IPi | IMulAdd => None
  end.

(** impl_binary_! (macros.rs:317-445). *)
Definition binary (X : externals) (be : bool) (junk junk' : vec) (i : impl) (t : vty) (x y : vec) : option vec :=
  match i with
  | IVec f => Some (wrapped2 X be f t x y)
  | IScalar sb sn f =>
      let xs := transmute be (vb t) sb sn x in
      let ys := transmute be (vb t) sb sn y in
      Some (transmute be sb (vb t) (vn t) (map2 (x_s2 X f) xs ys))
  | IHalves h f =>
      let xh := union_parts be t h 2 x in
      let yh := union_parts be t h 2 y in
      Some (union_vec be t h [wrapped2 X be f h (nth 0 xh []) (nth 0 yh []);
                              wrapped2 X be f h (nth 1 xh []) (nth 1 yh [])])
  | IQuarter q f =>
      let xq := union_parts be t q 4 x in
      let yq := union_parts be t q 4 y in
      Some (union_vec be t q [wrapped2 X be f q (nth 0 xq []) (nth 0 yq []);
                              wrapped2 X be f q (nth 1 xq []) (nth 1 yq []);
                              wrapped2 X be f q (nth 2 xq []) (nth 2 yq []);
                              wrapped2 X be f q (nth 3 xq []) (nth 3 yq [])])
  | ITwice tw f =>
      Some (union_elem be t tw 0
              (wrapped2 X be f tw (union_twice be t tw x junk) (union_twice be t tw y junk')))
  | IGen _ | IPi | IMulAdd => None
  end.

(** impl_tertiary_! (macros.rs:151-290; its scalar case, 164-183, is used by no table
    and would not compile); [IMulAdd] is mul_add.rs:43-45 and mul_adde.rs:46. *)
Definition tertiary (X : externals) (be : bool) (junk junk' junk'' : vec) (i : impl) (t : vty)
    (x y z : vec) : option vec :=
  match i with
  | IVec f => Some (wrapped3 X be f t x y z)
  | IHalves h f =>
      let xh := union_parts be t h 2 x in
      let yh := union_parts be t h 2 y in
      let zh := union_parts be t h 2 z in
      Some (union_vec be t h [wrapped3 X be f h (nth 0 xh []) (nth 0 yh []) (nth 0 zh []);
                              wrapped3 X be f h (nth 1 xh []) (nth 1 yh []) (nth 1 zh [])])
  | IQuarter q f =>
      let xq := union_parts be t q 4 x in
      let yq := union_parts be t q 4 y in
      let zq := union_parts be t q 4 z in
      Some (union_vec be t q [wrapped3 X be f q (nth 0 xq []) (nth 0 yq []) (nth 0 zq []);
                              wrapped3 X be f q (nth 1 xq []) (nth 1 yq []) (nth 1 zq []);
                              wrapped3 X be f q (nth 2 xq []) (nth 2 yq []) (nth 2 zq []);
                              wrapped3 X be f q (nth 3 xq []) (nth 3 yq []) (nth 3 zq [])])
  | ITwice tw f =>
      Some (union_elem be t tw 0
              (wrapped3 X be f tw (union_twice be t tw x junk) (union_twice be t tw y junk')
                        (union_twice be t tw z junk'')))
  | IMulAdd => Some (add t (mul t x y) z)
  | IScalar _ _ _ | IGen _ | IPi => None
  end.

(** A call through a table; [None]: no such method on this type. *)
Definition dispatch1 (table : target -> list (vty * impl)) (X : externals) (tg : target)
    (junk : vec) (t : vty) (v : vec) : option vec :=
  match lookup (table tg) t with
  | Some i => unary X (t_big_endian tg) junk i t v
  | None => None
  end.

(** The methods of src/api/math/float/{abs,cos,exp,ln,sin,sqrt,sqrte,tanh}.rs; each calls
    the trait method of the same name. *)
Definition fabs := dispatch1 abs_table.          (* abs.rs:8-11 *)
Definition cos := dispatch1 cos_table.           (* cos.rs:8-11 *)
Definition exp := dispatch1 exp_table.           (* exp.rs:8-11 *)
Definition ln := dispatch1 ln_table.             (* ln.rs:8-11 *)
Definition sin := dispatch1 sin_table.           (* sin.rs:8-11 *)
Definition fsqrt := dispatch1 sqrt_table.        (* sqrt.rs:7-10 *)
Definition sqrte := dispatch1 sqrte_table.       (* sqrte.rs:10-13 *)
Definition tanh := dispatch1 tanh_table.         (* tanh.rs:8-11 *)

(** cos_pi and sin_pi (cos.rs:15-18, sin.rs:15-18); the default implementation
    (cos_pi.rs:14-23, sin_pi.rs:14-23) multiplies by PI and calls cos or sin. *)
Definition cos_pi (X : externals) (tg : target) (junk : vec) (t : vty) (v : vec) : option vec :=
  match lookup (cos_pi_table tg) t with
  | Some IPi => cos X tg junk t (mul t v (splat t (elem_pi (vb t))))
  | Some i => unary X (t_big_endian tg) junk i t v
  | None => None
  end.
Definition sin_pi (X : externals) (tg : target) (junk : vec) (t : vty) (v : vec) : option vec :=
  match lookup (sin_pi_table tg) t with
  | Some IPi => sin X tg junk t (mul t v (splat t (elem_pi (vb t))))
  | Some i => unary X (t_big_endian tg) junk i t v
  | None => None
  end.

(** powf (powf.rs:8-11), mul_add (mul_add.rs:8-11), mul_adde (mul_adde.rs:12-15). *)
Definition powf (X : externals) (tg : target) (junk junk' : vec) (t : vty) (x y : vec) : option vec :=
  match lookup (powf_table tg) t with
  | Some i => binary X (t_big_endian tg) junk junk' i t x y
  | None => None
  end.
Definition mul_add (X : externals) (tg : target) (junk junk' junk'' : vec) (t : vty) (x y z : vec) : option vec :=
  match lookup (mul_add_table tg) t with
  | Some i => tertiary X (t_big_endian tg) junk junk' junk'' i t x y z
  | None => None
  end.
Definition mul_adde (X : externals) (tg : target) (t : vty) (x y z : vec) : option vec :=
  match lookup (mul_adde_table tg) t with
  | Some i => tertiary X (t_big_endian tg) [] [] [] i t x y z
  | None => None
  end.

(** [transmute($fun(transmute(v)))] for a function that returns a pair. *)
Definition wrapped_p (X : externals) (be : bool) (f : ext) (t : vty) (v : vec) : vec * vec :=
  let r := x_vp X f (as_arg be f t v) in (as_res be f t (fst r), as_res be f t (snd r)).

(** impl_unary_t! (sin_cos_pi.rs:37-134) and impl_def! (13-24).  In the doubled-up case
    (49-73) both components are taken from the first vector of the pair. *)
Definition sin_cos_pi (X : externals) (tg : target) (junk junk' : vec) (t : vty) (v : vec) : option (vec * vec) :=
  let be := t_big_endian tg in
  match lookup (sin_cos_pi_table tg) t with
  | Some IPi =>
      let w := mul t v (splat t (elem_pi (vb t))) in
      match sin X tg junk t w, cos X tg junk' t w with
      | Some s, Some c => Some (s, c)
      | _, _ => None
      end
  | Some (IVec f) => Some (wrapped_p X be f t v)                 (* 38-48 *)
  | Some (ITwice tw f) =>                                        (* 49-73 *)
      let twice := wrapped_p X be f tw (union_twice be t tw v junk) in
      Some (union_elem be t tw 0 (fst twice), union_elem be t tw 1 (fst twice))
  | Some (IHalves h f) =>                                        (* 74-99 *)
      let halves := union_parts be t h 2 v in
      let res_0 := wrapped_p X be f h (nth 0 halves []) in
      let res_1 := wrapped_p X be f h (nth 1 halves []) in
      Some (union_vec be t h [fst res_0; fst res_1], union_vec be t h [snd res_0; snd res_1])
  | Some (IQuarter q f) =>                                       (* 100-133 *)
      let quarters := union_parts be t q 4 v in
      let res_0 := wrapped_p X be f q (nth 0 quarters []) in
      let res_1 := wrapped_p X be f q (nth 1 quarters []) in
      let res_2 := wrapped_p X be f q (nth 2 quarters []) in
      let res_3 := wrapped_p X be f q (nth 3 quarters []) in
      Some (union_vec be t q [fst res_0; fst res_1; fst res_2; fst res_3],
            union_vec be t q [snd res_0; snd res_1; snd res_2; snd res_3])
  | _ => None
  end.
