(** Model of the shower profiles that are turned into line currents: extern/shower_profile/shower_1D/shower_1D.cpp (Shower1D: get_shower 29-91,
    fill_tracks 93-117, print_dimensions 119-147), extern/shower_profile/environment/ice_profile.cpp, extern/utilities/constants.h and units.h.
    Reals instead of doubles and floats.  [None] is undefined behaviour: an element that a vector does not have, an overflow of an int, division by zero. *)
From stdpp Require Import base list list_numbers numbers option.
From Coq Require Import Reals ZArith.
From Verif Require Import NDArrayModel SignalModel.
Local Open Scope R_scope.

(** units.h:5-72: joule, kilogram (= joule * second * second / meter / meter); second = 1e9, meter = 1. *)
Definition joule : R := 6241509740000000000.
Definition kilogram : R := joule * 1000000000 * 1000000000 / 1 / 1.
(** constants.h:4-5: 299792458 * meter / second. *)
Definition speed_of_light : R := 299792458 * 1 / 1000000000.
(** IceProfile::get_density, ice_profile.cpp:4-6: 917 * kg / cubic_meter, everywhere. *)
Definition ice_density (x y z : R) : R := 917 * kilogram / (1 * 1 * 1).

(** ChargeExcessProfile, charge_excess_profile.cpp:6-13; the members hadronic, N and energy are not used by Shower1D. *)
Record profile := Profile { p_grammage : list R; p_charge : list R }.
(** Shower1D, shower_1D.h:31-39; energy and start_time are not used. *)
Record shower := Shower { h_start : R * R * R; h_zenith : R; h_azimuth : R; h_profile : profile; h_scaling : R }.

(** The largest int. *)
Definition int_max : nat := Z.to_nat (2 ^ 31 - 1).

(** Assignment to an element of a std::vector. *)
Definition assign (i : nat) (x : R) (l : list R) : option (list R) := if (i <? length l)%nat then Some (<[i := x]> l) else None.

Section model.
Context (density : R -> R -> R -> R) (h : shower).

(** One step along the shower axis, 51-53 and 71-73. *)
Definition next_x (ds x : R) : R := x + ds * sin (h_zenith h) * cos (h_azimuth h).
Definition next_y (ds y : R) : R := y + ds * sin (h_zenith h) * sin (h_azimuth h).
Definition next_z (ds z : R) : R := z + ds * cos (h_zenith h).

(** The loop that counts the points, 44-54.  [fuel] is how often the int n_points can be incremented. *)
Fixpoint count_points (fuel : nat) (ds maxg : R) (g x y z : R) (n : nat) : option nat :=
  if Rlt_dec g maxg then
    match fuel with
    | O => None
    | S fuel => count_points fuel ds maxg (g + density x y z * ds) (next_x ds x) (next_y ds y) (next_z ds z) (S n)
    end
  else Some n.

(** The while loop of 80-82: how often grammage_i is incremented, where [l] are the elements from grammage_i on. *)
Fixpoint skip_below (l : list R) (g : R) : nat :=
  match l with [] => O | x :: l => if Rlt_dec x g then S (skip_below l g) else O end.

(** The vectors t, x, y, z, ce. *)
Record vectors := Vectors { v_t : list R; v_x : list R; v_y : list R; v_z : list R; v_ce : list R }.

(** 83-89: the charge at [g], where [gi] is grammage_i. *)
Definition interpolate_charge (g : R) (gi : nat) : option R :=
  if (gi =? 0)%nat then q ← p_charge (h_profile h) !! 0%nat; Some (q * h_scaling h)
  else q1 ← p_charge (h_profile h) !! gi; q0 ← p_charge (h_profile h) !! (gi - 1)%nat;
       g1 ← p_grammage (h_profile h) !! gi; g0 ← p_grammage (h_profile h) !! (gi - 1)%nat;
       if Req_EM_T (g1 - g0) 0 then None else
       let delta_ce := q1 - q0 in let delta_grammage := (g - g0) / (g1 - g0) in
       Some ((q0 + delta_ce * delta_grammage) * h_scaling h).

(** Body of the loop of 70-90; [st] is the vectors, integrated_grammage and grammage_i. *)
Definition shower_step (dt ds : R) (st : vectors * R * nat) (i : nat) : option (vectors * R * nat) :=
  let '(v, g, gi) := st in
  x ← v_x v !! (i - 1)%nat; xs ← assign i (next_x ds x) (v_x v);
  y ← v_y v !! (i - 1)%nat; ys ← assign i (next_y ds y) (v_y v);
  z ← v_z v !! (i - 1)%nat; zs ← assign i (next_z ds z) (v_z v);
  t ← v_t v !! (i - 1)%nat; ts ← assign i (t + dt) (v_t v);
  let g := g + ds * density x y z in
  let gi := (gi + skip_below (drop gi (p_grammage (h_profile h))) g)%nat in
  q ← interpolate_charge g gi;
  ces ← assign i q (v_ce v);
  Some (Vectors ts xs ys zs ces, g, gi).

(** get_shower, 29-91: from the resizing of the vectors to [n] elements on (55-90). *)
Definition get_points (dt ds : R) (n : nat) (v : vectors) : option vectors :=
  ts ← assign 0 0 (resize n 0 (v_t v));
  xs ← assign 0 (h_start h).1.1 (resize n 0 (v_x v));
  ys ← assign 0 (h_start h).1.2 (resize n 0 (v_y v));
  zs ← assign 0 (h_start h).2 (resize n 0 (v_z v));
  q ← p_charge (h_profile h) !! 0%nat;
  ces ← assign 0 q (resize n 0 (v_ce v));
  st ← foldM (shower_step dt ds) (Vectors ts xs ys zs ces, 0, 0%nat) (seq 1 (n - 1));
  Some st.1.1.
(** get_shower, 29-91. *)
Definition get_shower (dt : R) (v : vectors) : option vectors :=
  let ds := dt * speed_of_light in
  maxg ← p_grammage (h_profile h) !! (length (p_grammage (h_profile h)) - 1)%nat;
  n ← count_points int_max ds maxg 0 (h_start h).1.1 (h_start h).1.2 (h_start h).2 0;
  get_points dt ds n v.

(** Body of the loop of fill_tracks, 109-116. *)
Definition add_track (v : vectors) (out : list segment) (i : nat) : option (list segment) :=
  let c := speed_of_light in
  x ← v_x v !! i; y ← v_y v !! i; z ← v_z v !! i;
  x' ← v_x v !! (i + 1)%nat; y' ← v_y v !! (i + 1)%nat; z' ← v_z v !! (i + 1)%nat;
  t ← v_t v !! i; t' ← v_t v !! (i + 1)%nat; q ← v_ce v !! i;
  Some (out ++ [Segment (x / c, y / c, z / c) (x' / c, y' / c, z' / c) t t' q]).
(** fill_tracks, 93-117.  (t.size() is positive: otherwise get_shower is undefined.) *)
Definition fill_tracks (dt : R) (out : list segment) : option (list segment) :=
  v ← get_shower dt (Vectors [] [] [] [] []);
  foldM (add_track v) out (seq 0 (length (v_t v) - 1)).

(** Body of the loop of print_dimensions, 131-137. *)
Definition extend_dimensions (v : vectors) (d : R * R * R * R) (i : nat) : option (R * R * R * R) :=
  let '(r_min, r_max, z_min, z_max) := d in
  x ← v_x v !! i; y ← v_y v !! i; z ← v_z v !! i;
  let r := sqrt (x * x + y * y) in
  Some (Rmin r_min r, Rmax r_max r, Rmin z_min z, Rmax z_max z).
(** print_dimensions, 119-147: r_min, r_max, z_min, z_max. *)
Definition print_dimensions : option (R * R * R * R) :=
  v ← get_shower 1 (Vectors [] [] [] [] []);
  x0 ← v_x v !! 0%nat; y0 ← v_y v !! 0%nat; z0 ← v_z v !! 0%nat;
  let r0 := sqrt (x0 * x0 + y0 * y0 + z0 * z0) in
  '(r_min, r_max, z_min, z_max) ← foldM (extend_dimensions v) (r0, r0, z0, z0) (seq 0 (length (v_t v)));
  Some (r_min / speed_of_light, r_max / speed_of_light, z_min / speed_of_light, z_max / speed_of_light).
End model.
