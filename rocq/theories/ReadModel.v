(** Model of CylindricalGreensFunction as an object of the program: the index and the cache of the library it inherits from (LibraryModel) change while
    it is read.  eisvogel/core/impl/GreensFunction.hxx: fill_array (104-203), apply_accumulate (205-342), accumulate_inner_product (344-437).  SignalModel
    and FillModel model the same functions for an index and a cache that are functions.  As there, reals instead of floats: the stored
    floats are read as the real numbers they are (Flocq's binary32); and casts of numbers to size_t are not modelled to fail for 2^64 and above. *)
From stdpp Require Import base list list_numbers numbers option gmap.
From Coq Require Import Reals NArith ZArith.
From Flocq Require Import IEEE754.Binary IEEE754.Bits.
From Verif Require Import NDArrayModel CodecModel KernelModel InterpModel BBoxModel ChunkMetaModel ChunkCacheModel LibraryModel SignalModel FillModel.
Local Open Scope R_scope.

(** The number that is stored as the 32 bits [b]; zero if it is not finite. *)
Definition float_value (b : N) : R := B2R 24 128 (b32_of_bits (Z.of_N b)).
Definition real_array (a : ndarr N) : ndarr R := NDArr (a_shape a) (a_strides a) (a_off a) (float_value <$> a_data a) (a_owns a).
(** What SignalModel needs for working on one retrieved chunk. *)
Definition given (d : ndarr N) : green := Green (0, 0, 0) (0, 0, 0) (fun _ => None) (fun _ => Some (real_array d)).

Section model.
Context (junk : N) (start interval : R * R * R).

(** The while loop of accumulate_inner_product, 365-436, as SignalModel.accumulate_loop. *)
Fixpoint accumulate_loop_on (K : kernel) (ignore : bool) (fr fz ft ts : R) (n : nat) (source : R * R) (weight : R)
    (fuel : nat) (cur pos : nat) (signal : list R) (l : clib) : res (list R * clib) :=
  if (n <=? cur)%nat then Done (signal, l) else
  match fuel with
  | O => Undef
  | S fuel =>
    let cft := ft + INR cur * ts in
    ir ← of_opt (to_size fr); iz ← of_opt (to_size fz); it ← of_opt (to_size cft);
    '(meta, l) ← lib_find [N.of_nat ir; N.of_nat iz; N.of_nat it] l;
    match meta with
    | None => if ignore then Done (signal, l) else Undef
    | Some m =>
      if (N.to_nat (cm_overlap m) <? k_support K)%nat then Undef else
      end_t ← of_opt (cm_end m !! 2%nat);
      if Req_EM_T ts 0 then Undef else
      c ← of_opt (to_size ((INR (N.to_nat end_t) - cft) / ts));
      let req := Nat.min (c + 1) (n - cur) in
      if Rle_dec (cft + INR (req - 1) * ts) (INR (N.to_nat end_t)) then
        '(signal, pos, l) ← (if (cm_type m =? specified)%N then
            '(d, l) ← lib_retrieve 2 3 junk m l;
            buf ← of_opt (chunk_samples (given d) K m fr fz cft ts req);
            '(signal, pos) ← of_opt (foldM (fun '(signal, pos) i =>
              v ← buf !! i; x ← inner v source;
              signal ← bump signal pos (x * weight); Some (signal, S pos)) (signal, pos) (seq 0 req));
            Done (signal, pos, l)
          else Done (signal, pos, l));
        accumulate_loop_on K ignore fr fz ft ts n source weight fuel (cur + req) pos signal l
      else Undef
    end
  end.

(** accumulate_inner_product, 344-437. *)
Definition accumulate_inner_product_on (K : kernel) (ignore : bool) (rz : R * R) (t_start t_samp : R) (n : nat)
    (source : R * R) (pos : nat) (weight : R) (signal : list R) (l : clib) : res (list R * clib) :=
  let '(r0, z0, t0) := start in let '(dr, dz, dt) := interval in
  if Req_EM_T dr 0 then Undef else if Req_EM_T dz 0 then Undef else if Req_EM_T dt 0 then Undef else
  accumulate_loop_on K ignore ((rz.1 - r0) / dr) ((rz.2 - z0) / dz) ((t_start - t0) / dt) (t_samp / dt) n source weight n 0 pos signal l.

(** A loop whose body may break off. *)
Fixpoint rloop_break {A B} (f : A -> B -> res (A + A)) (a : A) (l : list B) : res A :=
  match l with
  | [] => Done a
  | x :: l => r ← f a x; match r with inl a => rloop_break f a l | inr a => Done a end
  end.

(** apply_accumulate, 205-342. *)
Definition apply_accumulate_on (itgr_blk samp_blk : nat) (K : kernel) (ignore : bool) (seg : segment)
    (t_sig_start t_sig_samp : R) (num_samples : nat) (weight : R) (signal : list R) (l : clib) : res (list R * clib) :=
  num_intervals ← of_opt (to_size (IZR (ceiling ((s_t1 seg - s_t0 seg) / 1))));
  if (num_intervals =? 0)%nat then Undef else
  if Req_EM_T t_sig_samp 0 then Undef else
  let itgr_step := (s_t1 seg - s_t0 seg) / INR num_intervals in
  let num_steps := (num_intervals + 1)%nat in
  let vel := vscale (/ (s_t1 seg - s_t0 seg)) (vplus (s_end seg) (vscale (-1) (s_start seg))) in
  let seg_step := vscale itgr_step vel in
  let source_xyz := vscale (s_charge seg) vel in
  rfold (fun '(signal, l) blk =>
    let size := Nat.min itgr_blk (num_steps - blk) in
    let pos_of i := vplus (s_start seg) (vscale (INR (i + blk)) seg_step) in
    let coords := (fun i => coord_cyl (pos_of i)) <$> seq 0 size in
    let sources := (fun i => field_cyl source_xyz (pos_of i)) <$> seq 0 size in
    weights ← of_opt (fill_weights blk (blk + size) num_steps size);
    rfold (fun '(signal, l) sblk =>
      let send := Nat.min (sblk + samp_blk) num_samples in
      rloop_break (fun '(signal, l) i =>
        let t_p := INR (i + blk) * itgr_step + s_t0 seg in
        c ← of_opt (to_int (ceiling ((t_p - t_sig_start) / t_sig_samp)));
        let causal := Z.to_nat (Z.max 0 c) in
        let first := Nat.max sblk (Nat.min causal send) in
        let num := (send - first)%nat in
        if (num =? 0)%nat then Done (inr (signal, l)) else
        let t_first := INR first * t_sig_samp + t_sig_start in
        let conv_start := t_first - t_p in
        if Rlt_dec conv_start 0 then Undef else
        if (length signal <? first + num)%nat then Undef else
        rz ← of_opt (coords !! i); src ← of_opt (sources !! i); w ← of_opt (weights !! i);
        '(signal, l) ← accumulate_inner_product_on K ignore rz conv_start t_sig_samp num src first (w * itgr_step * weight * (-1)) signal l;
        Done (inl (signal, l))) (signal, l) (seq 0 size))
      (signal, l) (starts num_samples 0 num_samples samp_blk))
    (signal, l) (starts num_steps 0 num_steps itgr_blk).

(** The loop over the chunks of fill_array, 134-202. *)
Definition fill_chunk_on (K : kernel) (f0 st : R * R * R) (n : nat * nat * nat) (al : ndarr R * clib) (m : chunk_meta) : res (ndarr R * clib) :=
  if (cm_type m =? all_null)%N then Done al else
  '(d, l) ← lib_retrieve 2 3 junk m al.2;
  arr ← of_opt (fill_chunk (given d) K f0 st n al.1 m);
  Done (arr, l).
(** fill_array, 104-203.  [m_end] is m_meta.end_pos_rzt; [junkr] is what the storage holds that resize adds to [arr]. *)
Definition fill_array_on (m_end : R * R * R) (K : kernel) (junkr : R) (p q : R * R * R) (n : nat * nat * nat) (arr : ndarr R) (l : clib) : res (ndarr R * clib) :=
  let in_range (x : R * R * R) :=
    axis_in_range x.1.1 start.1.1 m_end.1.1 && axis_in_range x.1.2 start.1.2 m_end.1.2 && axis_in_range x.2 start.2 m_end.2 in
  if in_range p && in_range q then
    arr ← of_opt (aresize 2 junkr [n.1.1; n.1.2; n.2] arr);
    let arr := NDArr (a_shape arr) (a_strides arr) (a_off arr) (replicate (length (a_data arr)) 0) (a_owns arr) in
    let '(dr, dz, dt) := interval in
    if Req_EM_T dr 0 then Undef else if Req_EM_T dz 0 then Undef else if Req_EM_T dt 0 then Undef else
    let f x := ((x.1.1 - start.1.1) / dr, (x.1.2 - start.1.2) / dz, (x.2 - start.2) / dt) in
    let f0 := f p in let f1 := f q in
    if (n.1.1 =? 1)%nat || (n.1.2 =? 1)%nat || (n.2 =? 1)%nat then Undef else
    let st := ((f1.1.1 - f0.1.1) / (INR n.1.1 - 1), (f1.1.2 - f0.1.2) / (INR n.1.2 - 1), (f1.2 - f0.2) / (INR n.2 - 1)) in
    s1 ← of_opt (to_size f0.1.1); s2 ← of_opt (to_size f0.1.2); s3 ← of_opt (to_size f0.2);
    e1 ← of_opt (to_size f1.1.1); e2 ← of_opt (to_size f1.1.2); e3 ← of_opt (to_size f1.2);
    if Req_EM_T st.1.1 0 then Undef else if Req_EM_T st.1.2 0 then Undef else if Req_EM_T st.2 0 then Undef else
    ms ← lib_find_range [N.of_nat s1; N.of_nat s2; N.of_nat s3] [N.of_nat e1; N.of_nat e2; N.of_nat e3] l;
    rfold (fill_chunk_on K f0 st n) (arr, l) ms
  else Undef.
End model.
