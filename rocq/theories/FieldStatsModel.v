(** Model of the dynamic-range truncation of stored fields,
    eisvogel/meep/impl/MEEPCylindricalGreensFunctionCalculator.hxx: FieldStatisticsTracker (9-70),
    limit_field_dynamic_range (176-205), the set-up callback (247-291) and the part of the saving callback
    (294-371) that fills the field buffers, updates the statistics and truncates.  Scalars are real numbers
    (rounding is not modelled); [None] is a failed assert or an access outside a buffer.
    Not modelled: the way MEEP enumerates the grid points of a simulation chunk and computes the fields; a time step
    hands over the list of visited points (index, (E_z, E_r)). *)
From stdpp Require Import base list list_numbers numbers option gmap.
From Coq Require Import NArith Reals.
From Verif Require Import LoopsModel NDArrayModel BBoxModel DownsampleModel.
Local Open Scope R_scope.

(** to_downsampled_shape, line 58-60 (size_t without wrap-around), to_downsampled_ind, 62-64. *)
Definition cell_shape (ds : nat) (sh : list nat) : list nat := (fun s => (s + ds - 1) / ds)%nat <$> sh.
Definition cell_ind (ds : nat) (ind : list nat) : list nat := (fun i => i / ds)%nat <$> ind.

(** m_max_data, line 68. *)
Notation stats := (gmap Z (ndarr R)).

(** AddRegion, lines 22-29 (init_value defaults to 0); emplace keeps an existing entry.  The constructor of region_t
    allocates and then assigns the initial value, NDVecArray.hxx:16-22. *)
Definition add_region (junk : R) (ds : nat) (m : stats) (key : Z) (sh : list nat) (init : R) : option stats :=
  r ← aassign_val 1 (anew 1 junk (cell_shape ds sh)) init;
  Some (match m !! key with Some _ => m | None => <[key := r]> m end).

(** max_updater, lines 37-45. *)
Definition max_updater (ds : nat) (data mx : ndarr R) (ind : list nat) : option (ndarr R) :=
  let sub := cell_ind ds ind in
  cur ← aread 1 data ind; old ← aread 1 mx sub;
  match cur, old with
  | [c], [o] => if Rlt_dec o c then awrite 1 mx sub [c] else Some mx
  | _, _ => None
  end.

(** UpdateStatisticsForRegion, lines 31-47. *)
Definition update_stats (ds : nat) (m : stats) (key : Z) (data : ndarr R) : option stats :=
  mx ← m !! key;
  inds ← elem_loop (loop_fuel (a_shape data)) (replicate (length (a_shape data)) 0%nat) (a_shape data);
  mx' ← foldM (max_updater ds data) mx inds;
  Some (<[key := mx']> m).

(** GetMaxLocal, lines 49-53. *)
Definition get_max_local (ds : nat) (m : stats) (key : Z) (ind : list nat) : option R :=
  mx ← m !! key;
  v ← aread 1 mx (cell_ind ds ind);
  match v with [x] => Some x | _ => None end.

(** truncator, lines 183-203; cur_ind.zr() drops the time component. *)
Definition truncator (ds : nat) (m : stats) (key : Z) (absval : ndarr R) (abs_min dyn : R)
    (field : ndarr R) (ind : list nat) : option (ndarr R) :=
  let slice := tail ind in
  mx ← get_max_local ds m key slice;
  if Rlt_dec abs_min mx then
    v ← aread 1 absval slice;
    match v with
    | [cur] => if Rlt_dec cur (mx / dyn) then awrite 2 field ind [0; 0] else Some field
    | _ => None
    end
  else awrite 2 field ind [0; 0].

(** limit_field_dynamic_range, lines 176-205 (the counter num_truncations is never used and left out). *)
Definition limit_dynamic_range (ds : nat) (m : stats) (key : Z) (field absval : ndarr R) (abs_min dyn : R)
  : option (ndarr R) :=
  inds ← elem_loop (loop_fuel (a_shape field)) (replicate (length (a_shape field)) 0%nat) (a_shape field);
  foldM (truncator ds m key absval abs_min dyn) field inds.

(** sim_chunk_meta: storage_chunk_start_ind and storage_chunk_shape of every simulation chunk that is saved. *)
Notation metas := (gmap Z (list N * list nat)).

(** The relevant part of ChunkloopData. *)
Record sstate := SState { st_metas : metas; st_stats : stats; st_field : ndarr R; st_absval : ndarr R }.

(** eisvogel_setup_cylindrical_storage_chunkloop, lines 284-290, for one chunk that overlaps the storage domain. *)
Definition setup_chunk (junk : R) (ds : nat) (s : sstate) (c : Z * (list N * list nat)) : option sstate :=
  m ← add_region junk ds (st_stats s) c.1 c.2.2 0;
  Some (SState (match st_metas s !! c.1 with Some _ => st_metas s | None => <[c.1 := c.2]> (st_metas s) end)
          m (st_field s) (st_absval s)).

(** E_abs_val, line 351. *)
Definition magnitude (ez er : R) : R := sqrt (ez * ez + er * er).

(** The body of the loop over grid points, lines 331-359: a point outside the storage portion of the chunk is skipped. *)
Definition store_point (start : list N) (shape : list nat) (bufs : ndarr R * ndarr R) (p : list N * (R * R))
  : option (ndarr R * ndarr R) :=
  if contains_loop start (vof_nat shape) p.1 then
    let rel := vto_nat (vwsub p.1 start) in
    f ← awrite 2 bufs.1 (0%nat :: rel) [p.2.2; p.2.1];
    a ← awrite 1 bufs.2 rel [magnitude p.2.1 p.2.2];
    Some (f, a)
  else Some bufs.

(** eisvogel_cylindrical_saving_chunkloop up to the truncation, lines 294-371; the field buffer of the result is what is
    downsampled and stored. *)
Definition save_slice (junk : R) (ds : nat) (abs_min dyn : R) (s : sstate) (e : Z * list (list N * (R * R)))
  : option sstate :=
  match st_metas s !! e.1 with
  | None => Some s
  | Some (start, shape) =>
      absval ← aresize 1 junk shape (st_absval s);
      field ← aresize 2 junk (1%nat :: shape) (st_field s);
      '(field1, absval1) ← foldM (store_point start shape) (field, absval) e.2;
      m ← update_stats ds (st_stats s) e.1 absval1;
      field2 ← limit_dynamic_range ds m e.1 field1 absval1 abs_min dyn;
      Some (SState (st_metas s) m field2 absval1)
  end.
