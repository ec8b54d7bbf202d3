(** Model of CylindricalGreensFunction::apply_accumulate and accumulate_inner_product with 32-bit floats: eisvogel/core/impl/GreensFunction.hxx:199-473
    (SignalModel has the same code over the reals).  scalar_t is float.  Every operation is rounded on its own, to nearest; all NaNs are one.
    [None]: an assert fails, a null pointer is followed, a number is cast to an integer type that cannot hold it, or something outside of a
    buffer is accessed. *)
From stdpp Require Import base list numbers option.
From Coq Require Import ZArith Bool.
From Flocq Require Import Core IEEE754.BinarySingleNaN.
From Verif Require Import NDArrayModel BBoxModel ChunkMetaModel InterpModel SignalModel AntennaModel DiscreteModel Interp32Model.

(** What the two functions use of the object, as in SignalModel. *)
Record green32 := Green32 {
  h_start : f32 * f32 * f32; h_interval : f32 * f32 * f32;
  h_chunk : list N -> option chunk_meta;
  h_data : chunk_meta -> option (ndarr f32)
}.
(** A line current segment, Current.hh:5-15. *)
Record segment32 := Segment32 { s32_start : f32 * f32 * f32; s32_end : f32 * f32 * f32; s32_t0 : f32; s32_t1 : f32; s32_charge : f32 }.

(** std::ceil. *)
Definition ceil32 (x : f32) : f32 := Bnearbyint mode_UP x.
(** Cast to int, 295: undefined if the integral part does not fit. *)
Definition to_int32 (x : f32) : option Z :=
  if is_finite x then let k := Btrunc x in if (- 2 ^ 31 <=? k)%Z && (k <? 2 ^ 31)%Z then Some k else None else None.
(** 0.5f. *)
Definition half32 : f32 := binary_normalize 24 128 _ _ mode_NE 1 (-1) false.

(** Operations on vectors, Vector.hh:126-206. *)
Definition vmap32 (f : f32 -> f32) (v : f32 * f32 * f32) : f32 * f32 * f32 := let '(x, y, z) := v in (f x, f y, f z).
Definition vzip32 (f : f32 -> f32 -> f32) (v w : f32 * f32 * f32) : f32 * f32 * f32 := let '(x, y, z) := v in let '(a, b, c) := w in (f x a, f y b, f z c).
(** std::sqrt(x * x + y * y), 442 and 449. *)
Definition radius32 (x y : f32) : f32 := Bsqrt mode_NE (Bplus mode_NE (Bmult mode_NE x x) (Bmult mode_NE y y)).
(** coord_cart_to_cyl, 439-444. *)
Definition coord_cyl32 (p : f32 * f32 * f32) : f32 * f32 := let '(x, y, z) := p in (radius32 x y, z).
(** field_cart_to_cyl, 446-459. *)
Definition field_cyl32 (f p : f32 * f32 * f32) : f32 * f32 :=
  let '(x, y, _) := p in let '(fx, fy, fz) := f in
  let r := radius32 x y in
  let '(c, s) := (if Bltb zero32 r then (Bdiv mode_NE x r, Bdiv mode_NE y r) else (zero32, zero32)) in
  (Bplus mode_NE (Bmult mode_NE fx c) (Bmult mode_NE fy s), fz).
(** inner_product, 461-463. *)
Definition inner32 (field : list f32) (source : f32 * f32) : option f32 :=
  a ← field !! 0%nat; b ← field !! 1%nat; Some (Bplus mode_NE (Bmult mode_NE a source.1) (Bmult mode_NE b source.2)).
(** Quadrature::TrapezoidalRule::fill_weights, Quadrature.hh:8-28, as in KernelModel. *)
Definition put32 (w : list f32) (i : nat) (x : f32) : option (list f32) := if (i <? length w)%nat then Some (<[i := x]> w) else None.
Definition fill_weights32 (ind_a ind_b num_samples size : nat) : option (list f32) :=
  if (size =? ind_b - ind_a)%nat then
    let w := replicate size one32 in
    w1 ← (if (ind_a =? 0)%nat then put32 w 0 half32 else Some w);
    (if (ind_b =? num_samples)%nat then (if (size =? 0)%nat then None else put32 w1 (size - 1) half32) else Some w1)
  else None.

(** to_chunk_local_ind, 39-54: the difference of the indices is a size_t. *)
Definition local_coord32 (m : chunk_meta) (x : list f32) : option (list f32) :=
  mapM (fun xo : f32 * N => i ← to_size32 xo.1; Some (Bplus mode_NE (of_size (wsub i xo.2)) (Bminus mode_NE xo.1 (of_size i)))) (zip x (cm_off m)).

(** The position of the samples on the time axis of the Green's function, 357-358 and 367. *)
Definition t_index32 (t_start t0 dt : f32) : f32 := Bdiv mode_NE (Bminus mode_NE t_start t0) dt.
Definition sample_index32 (ft ts : f32) (cur : nat) : f32 := Bplus mode_NE ft (Bmult mode_NE (of_size (N.of_nat cur)) ts).
(** How many of the next samples the chunk determines, 390: at most [left] of them, 395; and the assert of 399. *)
Definition samples_from_chunk (end_t : N) (cft ts : f32) (left : nat) : option nat :=
  c ← to_size32 (Bdiv mode_NE (Bminus mode_NE (of_size end_t) cft) ts);
  let req := Nat.min (N.to_nat c + 1) left in
  if Bleb (Bplus mode_NE cft (Bmult mode_NE (of_size (N.of_nat (req - 1))) ts)) (of_size end_t) then Some req else None.

(** The values of the chunk, 409-422. *)
Definition chunk_samples32 (G : green32) (K : kernel32) (m : chunk_meta) (fr fz ft ts : f32) (n : nat) : option (list (list f32)) :=
  data ← h_data G m;
  loc ← local_coord32 m [fr; fz; ft];
  match loc with
  | [lr; lz; lt] => interpolate32 K 2 data (replicate n (replicate 2 zero32)) lr lz lt ts n
  | _ => None
  end.

Section result.
(** ResultT and [*result += x] for a float x, 426: float (SignalCalculator.hxx:14) or double (C8SignalCalculator.hxx:31). *)
Context {A : Type} (plus : A -> f32 -> A).
Definition bump32 (signal : list A) (pos : nat) (x : f32) : option (list A) := y ← signal !! pos; Some (<[pos := plus y x]> signal).

(** The while loop, 364-436. *)
Fixpoint accumulate_loop32 (G : green32) (K : kernel32) (ignore : bool) (fr fz ft ts : f32) (n : nat) (source : f32 * f32) (weight : f32)
    (fuel : nat) (cur pos : nat) (signal : list A) : option (list A) :=
  if (n <=? cur)%nat then Some signal else
  match fuel with
  | O => None
  | S fuel =>
    let cft := sample_index32 ft ts cur in
    ir ← to_size32 fr; iz ← to_size32 fz; it ← to_size32 cft;
    match h_chunk G [ir; iz; it] with
    | None => if ignore then Some signal else None
    | Some m =>
      if (N.to_nat (cm_overlap m) <? k32_support K)%nat then None else
      end_t ← cm_end m !! 2%nat;
      req ← samples_from_chunk end_t cft ts (n - cur);
      '(signal, pos) ← (if (cm_type m =? specified)%N then
          buf ← chunk_samples32 G K m fr fz cft ts req;
          foldM (fun '(signal, pos) i =>
            v ← buf !! i; x ← inner32 v source;
            signal ← bump32 signal pos (Bmult mode_NE x weight); Some (signal, S pos)) (signal, pos) (seq 0 req)
        else Some (signal, pos));
      accumulate_loop32 G K ignore fr fz ft ts n source weight fuel (cur + req) pos signal
    end
  end.

(** accumulate_inner_product, 344-437; [n] turns of the loop suffice, because every turn handles at least one sample. *)
Definition accumulate_inner_product32 (G : green32) (K : kernel32) (ignore : bool) (rz : f32 * f32) (t_start t_samp : f32) (n : nat)
    (source : f32 * f32) (pos : nat) (weight : f32) (signal : list A) : option (list A) :=
  let '(r0, z0, t0) := h_start G in let '(dr, dz, dt) := h_interval G in
  accumulate_loop32 G K ignore (t_index32 rz.1 r0 dr) (t_index32 rz.2 z0 dz) (t_index32 t_start t0 dt) (Bdiv mode_NE t_samp dt) n source weight n 0 pos signal.

(** num_quadrature_intervals and itgr_step, 210-213. *)
Definition num_intervals32 (t0 t1 : f32) : option N := to_size32 (ceil32 (Bdiv mode_NE (Bminus mode_NE t1 t0) one32)).
Definition itgr_step32 (t0 t1 : f32) (n : N) : f32 := Bdiv mode_NE (Bminus mode_NE t1 t0) (of_size n).
(** t_p, 292. *)
Definition itgr_time32 (t0 step : f32) (pt : nat) : f32 := Bplus mode_NE (Bmult mode_NE (of_size (N.of_nat pt)) step) t0.
(** sample_ind_causal, 295. *)
Definition causal_sample32 (t_p t_sig_start t_sig_samp : f32) : option nat :=
  c ← to_int32 (ceil32 (Bdiv mode_NE (Bminus mode_NE t_p t_sig_start) t_sig_samp)); Some (Z.to_nat (Z.max 0 c)).
(** convolution_t_start, 307-310, of the sample [first]. *)
Definition conv_start32 (t_p t_sig_start t_sig_samp : f32) (first : nat) : f32 :=
  Bminus mode_NE (Bplus mode_NE (Bmult mode_NE (of_size (N.of_nat first)) t_sig_samp) t_sig_start) t_p.
(** The weight of the product, 333. *)
Definition point_weight32 (w step weight : f32) : f32 :=
  to_float (Bmult mode_NE (to_double (Bmult mode_NE (Bmult mode_NE w step) weight)) (lit (-1) 0)).

(** The velocity, 219; the current, 226; the position of a point, 220 and 262. *)
Definition velocity32 (seg : segment32) : f32 * f32 * f32 :=
  vmap32 (fun x => Bdiv mode_NE x (Bminus mode_NE (s32_t1 seg) (s32_t0 seg))) (vzip32 (Bminus mode_NE) (s32_end seg) (s32_start seg)).
Definition source32 (seg : segment32) : f32 * f32 * f32 := vmap32 (fun x => Bmult mode_NE x (s32_charge seg)) (velocity32 seg).
Definition position32 (seg : segment32) (itgr_step : f32) (pt : nat) : f32 * f32 * f32 :=
  vzip32 (Bplus mode_NE) (s32_start seg)
    (vmap32 (fun x => Bmult mode_NE (of_size (N.of_nat pt)) x) (vmap32 (fun x => Bmult mode_NE x itgr_step) (velocity32 seg))).

(** apply_accumulate, 199-342.  [call] is accumulate_inner_product with the arguments coordinates, start time, number of samples, source, first
    sample, weight and signal. *)
Definition apply_accumulate_with (call : f32 * f32 -> f32 -> nat -> f32 * f32 -> nat -> f32 -> list A -> option (list A))
    (itgr_blk samp_blk : nat) (seg : segment32) (t_sig_start t_sig_samp : f32) (num_samples : nat) (weight : f32) (signal : list A) : option (list A) :=
  num_intervals ← num_intervals32 (s32_t0 seg) (s32_t1 seg);
  let itgr_step := itgr_step32 (s32_t0 seg) (s32_t1 seg) num_intervals in
  let num_steps := (N.to_nat num_intervals + 1)%nat in
  foldM (fun signal blk =>
    let size := Nat.min itgr_blk (num_steps - blk) in
    weights ← fill_weights32 blk (blk + size) num_steps size;
    foldM (fun signal sblk =>
      let send := Nat.min (sblk + samp_blk) num_samples in
      loop_break (fun signal i =>
        let t_p := itgr_time32 (s32_t0 seg) itgr_step (i + blk) in
        causal ← causal_sample32 t_p t_sig_start t_sig_samp;
        let first := Nat.max sblk (Nat.min causal send) in
        let num := (send - first)%nat in
        if (num =? 0)%nat then Some (inr signal) else
        let conv_start := conv_start32 t_p t_sig_start t_sig_samp first in
        if Bleb zero32 conv_start then
          if (length signal <? first + num)%nat then None else
          w ← weights !! i;
          signal ← call (coord_cyl32 (position32 seg itgr_step (i + blk))) conv_start num (field_cyl32 (source32 seg) (position32 seg itgr_step (i + blk))) first (point_weight32 w itgr_step weight) signal;
          Some (inl signal)
        else None) signal (seq 0 size))
      signal (starts num_samples 0 num_samples samp_blk))
    signal (starts num_steps 0 num_steps itgr_blk).

Definition apply_accumulate32 (itgr_blk samp_blk : nat) (G : green32) (K : kernel32) (ignore : bool) (seg : segment32)
    (t_sig_start t_sig_samp : f32) (num_samples : nat) (weight : f32) (signal : list A) : option (list A) :=
  apply_accumulate_with (fun rz conv num src first w signal => accumulate_inner_product32 G K ignore rz conv t_sig_samp num src first w signal)
    itgr_blk samp_blk seg t_sig_start t_sig_samp num_samples weight signal.
End result.

(** [*result += x] for float and double results. *)
Definition plus_float : f32 -> f32 -> f32 := Bplus mode_NE.
Definition plus_double (y : f64) (x : f32) : f64 := Bplus mode_NE y (to_double x).
