(** Model of CylindricalGreensFunction::apply_accumulate and accumulate_inner_product, eisvogel/core/impl/GreensFunction.hxx:
    199-473.  Reals instead of floats.  [None]: an assert fails, a null pointer is followed, a number is cast to an integer type
    that cannot hold it, something outside of a buffer is accessed, or a number is divided by zero. *)
From stdpp Require Import base list numbers option.
From Coq Require Import Reals ZArith.
From Verif Require Import NDArrayModel KernelModel InterpModel BBoxModel ChunkMetaModel.
Local Open Scope R_scope.

(** What the two functions use of the object: m_meta (start position and sampling interval of the three axes r, z, t),
    m_index.GetChunk (nullptr = [None]) and m_cache.RetrieveChunk. *)
Record green := Green {
  g_start : R * R * R; g_interval : R * R * R;
  g_chunk : list N -> option chunk_meta;
  g_data : chunk_meta -> option (ndarr R)
}.

(** Cast of a floating point number to size_t: truncation; undefined if the truncated number is negative. *)
Definition to_size (x : R) : option nat := if Rlt_dec (-1) x then Some (Z.to_nat (Int_part x)) else None.
(** Cast to int, as done by the template argument of std::max<int> in line 291. *)
Definition to_int (z : Z) : option Z := if ((- 2 ^ 31 <=? z) && (z <? 2 ^ 31))%Z then Some z else None.
(** std::ceil *)
Definition ceiling (x : R) : Z := (- Int_part (- x))%Z.

(** inner_product, 461-463. *)
Definition inner (field : list R) (source : R * R) : option R :=
  a ← field !! 0%nat; b ← field !! 1%nat; Some (a * source.1 + b * source.2).

(** *result += x; result is the iterator signal.begin() + pos. *)
Definition bump (signal : list R) (pos : nat) (x : R) : option (list R) :=
  y ← signal !! pos; Some (<[pos := y + x]> signal).

(** The part of the loop body that works on a chunk that is specified: 408-424.  The interpolation buffer is modelled as freshly cleared (the
    code clears it before it is resized, so that elements that come back into it when it grows are not cleared again; they
    were never written, either). *)
Definition chunk_samples (G : green) (K : kernel) (m : chunk_meta) (fr fz ft ts : R) (n : nat) : option (list (list R)) :=
  data ← g_data G m;
  loc ← local_coord m [fr; fz; ft];
  match loc with
  | [lr; lz; lt] => interpolate K 2 data (replicate n (replicate 2 0)) lr lz lt ts n
  | _ => None
  end.

(** The while loop, 365-436.  [cur] is cur_sample_ind and [pos] the output iterator. *)
Fixpoint accumulate_loop (G : green) (K : kernel) (ignore : bool) (fr fz ft ts : R) (n : nat) (source : R * R) (weight : R)
    (fuel : nat) (cur pos : nat) (signal : list R) : option (list R) :=
  if (n <=? cur)%nat then Some signal else
  match fuel with
  | O => None
  | S fuel =>
    let cft := ft + INR cur * ts in
    ir ← to_size fr; iz ← to_size fz; it ← to_size cft;
    match g_chunk G [N.of_nat ir; N.of_nat iz; N.of_nat it] with
    | None => if ignore then Some signal else None
    | Some m =>
      if (N.to_nat (cm_overlap m) <? k_support K)%nat then None else
      end_t ← cm_end m !! 2%nat;
      if Req_EM_T ts 0 then None else
      c ← to_size ((INR (N.to_nat end_t) - cft) / ts);
      let req := Nat.min (c + 1) (n - cur) in
      if Rle_dec (cft + INR (req - 1) * ts) (INR (N.to_nat end_t)) then
        '(signal, pos) ← (if (cm_type m =? specified)%N then
            buf ← chunk_samples G K m fr fz cft ts req;
            foldM (fun '(signal, pos) i =>
              v ← buf !! i; x ← inner v source;
              signal ← bump signal pos (x * weight); Some (signal, S pos)) (signal, pos) (seq 0 req)
          else Some (signal, pos));
        accumulate_loop G K ignore fr fz ft ts n source weight fuel (cur + req) pos signal
      else None
    end
  end.

(** accumulate_inner_product, 344-437; every turn of the loop handles at least one sample, so that [n] turns suffice.
    Division by a zero sampling interval gives [None]. *)
Definition accumulate_inner_product (G : green) (K : kernel) (ignore : bool) (rz : R * R) (t_start t_samp : R) (n : nat)
    (source : R * R) (pos : nat) (weight : R) (signal : list R) : option (list R) :=
  let '(r0, z0, t0) := g_start G in let '(dr, dz, dt) := g_interval G in
  if Req_EM_T dr 0 then None else if Req_EM_T dz 0 then None else if Req_EM_T dt 0 then None else
  accumulate_loop G K ignore ((rz.1 - r0) / dr) ((rz.2 - z0) / dz) ((t_start - t0) / dt) (t_samp / dt) n source weight n 0 pos signal.

(** A line current segment, Current.hh. *)
Record segment := Segment { s_start : R * R * R; s_end : R * R * R; s_t0 : R; s_t1 : R; s_charge : R }.

Definition vscale (k : R) (v : R * R * R) : R * R * R := let '(x, y, z) := v in (k * x, k * y, k * z).
Definition vplus (v w : R * R * R) : R * R * R := let '(x, y, z) := v in let '(a, b, c) := w in (x + a, y + b, z + c).

(** coord_cart_to_cyl, 439-444. *)
Definition coord_cyl (p : R * R * R) : R * R := let '(x, y, z) := p in (sqrt (x * x + y * y), z).
(** field_cart_to_cyl, 446-459. *)
Definition field_cyl (f : R * R * R) (p : R * R * R) : R * R :=
  let '(x, y, _) := p in let '(fx, fy, fz) := f in
  let r := sqrt (x * x + y * y) in
  let '(c, s) := (if Rlt_dec 0 r then (x / r, y / r) else (0, 0)) in
  (fx * c + fy * s, fz).

(** The values of the loop variable of [for(s = start; s < n; s += step)]; [step] is positive. *)
Fixpoint starts (fuel s n step : nat) : list nat :=
  match fuel with O => [] | S f => if (s <? n)%nat then s :: starts f (s + step) n step else [] end.

(** A loop over [l] whose body may break off ([inr]). *)
Fixpoint loop_break {A B} (f : A -> B -> option (A + A)) (a : A) (l : list B) : option A :=
  match l with
  | [] => Some a
  | x :: l => r ← f a x; match r with inl a => loop_break f a l | inr a => Some a end
  end.

(** apply_accumulate, 199-342.  [itgr_blk] and [samp_blk] are max_itgr_block_size and max_sample_block_size (both 100 in the
    code, 235-236). *)
Definition apply_accumulate (itgr_blk samp_blk : nat) (G : green) (K : kernel) (ignore : bool) (seg : segment)
    (t_sig_start t_sig_samp : R) (num_samples : nat) (weight : R) (signal : list R) : option (list R) :=
  num_intervals ← to_size (IZR (ceiling ((s_t1 seg - s_t0 seg) / 1)));
  if (num_intervals =? 0)%nat then None else
  if Req_EM_T t_sig_samp 0 then None else
  let itgr_step := (s_t1 seg - s_t0 seg) / INR num_intervals in
  let num_steps := (num_intervals + 1)%nat in
  let vel := vscale (/ (s_t1 seg - s_t0 seg)) (vplus (s_end seg) (vscale (-1) (s_start seg))) in
  let seg_step := vscale itgr_step vel in
  let source_xyz := vscale (s_charge seg) vel in
  foldM (fun signal blk =>
    let size := Nat.min itgr_blk (num_steps - blk) in
    let pos_of i := vplus (s_start seg) (vscale (INR (i + blk)) seg_step) in
    let coords := (fun i => coord_cyl (pos_of i)) <$> seq 0 size in
    let sources := (fun i => field_cyl source_xyz (pos_of i)) <$> seq 0 size in
    weights ← fill_weights blk (blk + size) num_steps size;
    foldM (fun signal sblk =>
      let send := Nat.min (sblk + samp_blk) num_samples in
      loop_break (fun signal i =>
        let t_p := INR (i + blk) * itgr_step + s_t0 seg in
        c ← to_int (ceiling ((t_p - t_sig_start) / t_sig_samp));
        let causal := Z.to_nat (Z.max 0 c) in
        let first := Nat.max sblk (Nat.min causal send) in
        let num := (send - first)%nat in
        if (num =? 0)%nat then Some (inr signal) else
        let t_first := INR first * t_sig_samp + t_sig_start in
        let conv_start := t_first - t_p in
        if Rlt_dec conv_start 0 then None else
        if (length signal <? first + num)%nat then None else
        rz ← coords !! i; src ← sources !! i; w ← weights !! i;
        signal ← accumulate_inner_product G K ignore rz conv_start t_sig_samp num src first (w * itgr_step * weight * (-1)) signal;
        Some (inl signal)) signal (seq 0 size))
      signal (starts num_samples 0 num_samples samp_blk))
    signal (starts num_steps 0 num_steps itgr_blk).
