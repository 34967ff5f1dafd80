(** QInterpModel.v -- interpolators and the distribution of a value over a grid
    (quantlib/src/math/interpolator.rs, math/interpolators/*.rs,
    utils/distribute_value.rs). *)
From Coq Require Import ZArith Arith List Bool.
From Flocq Require Import Core IEEE754.BinarySingleNaN.
From Verif Require Import Base FloatModel KrxModel QFindModel.
Import ListNotations.
Open Scope nat_scope.

(** The order of f32 (PartialOrd): None if either is NaN. *)
Definition fcmp (x y : f32) : option comparison := Bcompare x y.

(** a loop whose body may fail with [?] or [return Err] *)
Fixpoint map_res {A B} (f : A -> outcome (rresult B)) (l : list A) : outcome (rresult (list B)) :=
  match l with [] => Ret (ROk []) | x :: l' => let? y := f x in let? ys := map_res f l' in Ret (ROk (y :: ys)) end.
(** the same over two arrays of one length (the shorter one decides) *)
Fixpoint map_res2 {A B C} (f : A -> B -> outcome (rresult C)) (l : list A) (m : list B) : outcome (rresult (list C)) :=
  match l, m with
  | x :: l', y :: m' => let? z := f x y in let? zs := map_res2 f l' m' in Ret (ROk (z :: zs))
  | _, _ => Ret (ROk [])
  end.

(** ** math/interpolators/stepwise_interpolatior.rs *)
Section Stepwise.
Context {T : Type} (cmp : T -> T -> option comparison).
(** 13-22: StepwiseInterpolator1D; the values ([Real]) are only copied, so
    their type is a parameter *)
Context {V : Type}.
Record stepwise : Type := Stepwise { s_domain : list T; s_value : list V; s_allow : bool; s_left : option V; s_right : option V }.
(** 29-60: new *)
Definition stepwise_new (domain : list T) (value : list V) (allow : bool) (l r : option V) : outcome (rresult stepwise) :=
  if negb (length domain =? length value) then Ret RErr
  else if length domain =? 0 then Ret RErr
  else let! ok := is_ndarray_sorted cmp domain in
       if ok then Ret (ROk (Stepwise domain value allow l r)) else Ret RErr.
(** 67-99: interpolate *)
Definition stepwise_interpolate (s : stepwise) (x : T) : outcome (rresult V) :=
  let n := length (s_domain s) in
  let! first := at_ (s_domain s) 0 in
  if o_lt cmp x first then
    if s_allow s then match s_left s with None => let! v := at_ (s_value s) 0 in Ret (ROk v) | Some v => Ret (ROk v) end
    else Ret RErr
  else
    let! last := at_ (s_domain s) (n - 1) in
    if o_gt cmp x last then
      if s_allow s then match s_right s with None => let! v := at_ (s_value s) (n - 1) in Ret (ROk v) | Some v => Ret (ROk v) end
      else Ret RErr
    else
      let! index := binary_search_index cmp (s_domain s) x in
      let! v := at_ (s_value s) index in
      Ret (ROk v).
(** 101-124: vectorized_interpolate_for_sorted_ndarray *)
Definition stepwise_vectorized (s : stepwise) (x : list T) : outcome (rresult (list V)) :=
  if length x <=? 2 then map_res (stepwise_interpolate s) x
  else
    let! index := vectorized_search_index cmp (s_domain s) x in
    let! lo := at_ (s_domain s) 0 in
    let! hi := at_ (s_domain s) (length (s_domain s) - 1) in
    map_res2 (fun xi ix =>
      if negb (s_allow s) && (o_lt cmp xi lo || o_gt cmp xi hi) then Ret RErr
      else let! v := at_ (s_value s) ix in Ret (ROk v)) x index.
(** 128-151: ConstantInterpolator1D *)
Definition constant_interpolate (value : V) (x : T) : rresult V := ROk value.
Definition constant_vectorized (value : V) (x : list T) : rresult (list V) := ROk (repeat value (length x)).
End Stepwise.
Arguments stepwise : clear implicits.

(** ** math/interpolator.rs 7-12: ExtraPolationType (spelled XNone.. here) *)
Inductive extrapolation : Type := XNone | XFlat | XLinear.

(** ** math/interpolators/linear_interpolator.rs 10-17: LinearInterpolator1D *)
Record linear : Type := Linear { l_domain : list f32; l_value : list f32; l_slopes : list f32; l_extra : extrapolation; l_allow : bool }.
(** 50-53: derivatives[i] = (value[i+1] - value[i]) / (domain[i+1] - domain[i]) *)
Fixpoint slopes (domain value : list f32) : list f32 :=
  match domain, value with
  | a :: ((b :: _) as domain'), u :: ((w :: _) as value') => gdiv (gsub w u) (gsub b a) :: slopes domain' value'
  | _, _ => []
  end.
(** 32-64: new (an empty domain panics in is_ndarray_sorted) *)
Definition linear_new (domain value : list f32) (extra : extrapolation) (allow : bool) : outcome (rresult linear) :=
  if negb (length domain =? length value) then Ret RErr
  else let! ok := is_ndarray_sorted fcmp domain in
       if ok then Ret (ROk (Linear domain value (slopes domain value) extra allow)) else Ret RErr.
(** value[i] + derivatives[j] * (x - domain[i]), as written at 75, 101, 122,
    139, 162, 183 *)
Definition line (l : linear) (i j : nat) (x : f32) : outcome (rresult f32) :=
  let! v := at_ (l_value l) i in
  let! s := at_ (l_slopes l) j in
  let! d := at_ (l_domain l) i in
  Ret (ROk (gadd v (gmul s (gsub x d)))).
(** [x[n - k]] where n - k may be negative: a panic (or a wrapped index, which
    is out of bounds) *)
Definition minus_ (n k : nat) : outcome nat := if k <=? n then Ret (n - k) else Panic.
(** 68-124: interpolate ([linear_at l x index] with the index found by binary
    search) and the body of the loop of 127-187 (with the index found by the
    vectorized search); the two are the same text *)
Definition linear_at (l : linear) (x : f32) (index : outcome nat) : outcome (rresult f32) :=
  let! first := at_ (l_domain l) 0 in
  if o_lt fcmp x first then
    if l_allow l then
      match l_extra l with
      | XFlat => let! v := at_ (l_value l) 0 in Ret (ROk v)
      | XLinear => line l 0 0 x
      | XNone => Ret RErr
      end
    else Ret RErr
  else
    let! i9 := minus_ (length (l_domain l)) 1 in
    let! last := at_ (l_domain l) i9 in
    if o_ge fcmp x last then
      if l_allow l then
        match l_extra l with
        | XFlat => let! v := at_ (l_value l) i9 in Ret (ROk v)
        | XLinear => let! j := minus_ (length (l_domain l)) 2 in line l i9 j x
        | XNone => Ret RErr
        end
      else Ret RErr
    else let! i := index in line l i i x.
Definition linear_interpolate (l : linear) (x : f32) : outcome (rresult f32) :=
  linear_at l x (binary_search_index fcmp (l_domain l) x).
(** 127-187: vectorized_interpolate_for_sorted_ndarray *)
Definition linear_vectorized (l : linear) (x : list f32) : outcome (rresult (list f32)) :=
  let! index := vectorized_search_index fcmp (l_domain l) x in
  map_res2 (fun xi ix => linear_at l xi (Ret ix)) x index.

(** ** math/interpolators/bilinear_interpolator.rs 11-17: BilinearInterpolator *)
Record bilinear : Type := Bilinear { b_t : list f32; b_x : list linear; b_allow : bool; b_extra : extrapolation }.
(** 31-63: new *)
Definition bilinear_new (t : list f32) (x : list linear) (allow : bool) (extra : extrapolation) : outcome (rresult bilinear) :=
  if negb (length t =? length x) then Ret RErr
  else let! ok := is_ndarray_sorted fcmp t in
       if ok then Ret (ROk (Bilinear t x allow extra)) else Ret RErr.
(** 65-136: new_from_rectangle_data; the matrix is given by its rows, all of
    [cols] elements *)
Definition bilinear_rect (t x : list f32) (rows : list (list f32)) (cols : nat) (x_allow : bool) (x_extra : extrapolation) (t_allow : bool) (t_extra : extrapolation)
  : outcome (rresult bilinear) :=
  if (length t <? 2) || (length x <? 2) then Ret RErr
  else if negb (length t =? length rows) then Ret RErr
  else if negb (length x =? cols) then Ret RErr
  else
    let? xs := map_res (fun row => linear_new x row x_extra x_allow) rows in
    Ret (ROk (Bilinear t xs t_allow t_extra)).
(** v + (t - a) * (w - v') / (b - a'), as written at 150, 180, 207 *)
Definition blend (v : f32) (t a : f32) (dv dt : f32) : f32 := gadd v (gdiv (gmul (gsub t a) dv) dt).
(** 138-209: interpolate *)
Definition bilinear_interpolate (b : bilinear) (t x : f32) : outcome (rresult f32) :=
  let inter i := let! l := at_ (b_x b) i in linear_interpolate l x in
  let n := length (b_t b) in
  let! first := at_ (b_t b) 0 in
  if o_lt fcmp t first then
    if b_allow b then
      match b_extra b with
      | XFlat => inter 0
      | XLinear =>
          let? v1 := inter 0 in
          let? v2 := inter 1 in
          let! t1 := at_ (b_t b) 0 in
          let! t2 := at_ (b_t b) 1 in
          Ret (ROk (blend v1 t t1 (gsub v2 v1) (gsub t2 t1)))
      | XNone => Ret RErr
      end
    else Ret RErr
  else
    let! i9 := minus_ n 1 in
    let! last := at_ (b_t b) i9 in
    if o_ge fcmp t last then
      if b_allow b then
        match b_extra b with
        | XFlat => inter i9
        | XLinear =>
            let? v9 := inter i9 in
            let! i8 := minus_ n 2 in
            let? v8 := inter i8 in
            let! t9 := at_ (b_t b) i9 in
            let! t8 := at_ (b_t b) i8 in
            Ret (ROk (blend v9 t t9 (gsub v9 v8) (gsub t9 t8)))
        | XNone => Ret RErr
        end
      else Ret RErr
    else
      let! i := binary_search_index fcmp (b_t b) t in
      let! t1 := at_ (b_t b) i in
      let! t2 := at_ (b_t b) (i + 1) in
      let? v1 := inter i in
      let? v2 := inter (i + 1) in
      Ret (ROk (blend v1 t t1 (gsub v2 v1) (gsub t2 t1))).

(** ** utils/distribute_value.rs 5-37: distribute_value_on_vector *)
Fixpoint set_nth {A} (v : list A) (i : nat) (x : A) : list A :=
  match v, i with [], _ => [] | _ :: v', O => x :: v' | y :: v', S k => y :: set_nth v' k x end.
(** vector[i] += x *)
Definition add_at (v : list f32) (i : nat) (x : f32) : outcome (list f32) :=
  let! y := at_ v i in Ret (set_nth v i (gadd y x)).
(** the result, and the vector as the caller finds it afterwards *)
Definition distribute (vector : list f32) (value loc : f32) (locs : list f32) : outcome (rresult unit * list f32) :=
  let n := length vector in
  if negb (n =? length locs) then Ret (RErr, vector)
  else if n =? 0 then Ret (ROk tt, vector)
  else
    let! first := at_ locs 0 in
    if o_le fcmp loc first then let! v := add_at vector 0 value in Ret (ROk tt, v)
    else
      let! last := at_ locs (n - 1) in
      if o_ge fcmp loc last then let! v := add_at vector (n - 1) value in Ret (ROk tt, v)
      else
        let! i := binary_search_index fcmp locs loc in
        let! a := at_ locs i in
        let! b := at_ locs (i + 1) in
        let rw := gdiv (gsub loc a) (gsub b a) in
        let lw := gsub (gof_Z 1) rw in
        let! v := add_at vector i (gmul lw value) in
        let! v := add_at v (i + 1) (gmul rw value) in
        Ret (ROk tt, v).
