(** Model of the trajectory of the moving point charge: examples/point_charge_askaryan/point_charge_askaryan.cxx:21-42, the same loop in tests/physics/testAskaryan.cxx:49-61,
    and the constructor of LineCurrentSegment, eisvogel/core/impl/Current.hxx:1-7.  In 32-bit floats, every operation is rounded on its own, to nearest. *)
From stdpp Require Import base list numbers option.
From Coq Require Import ZArith Bool.
From Flocq Require Import Core IEEE754.BinarySingleNaN.
From Verif Require Import AntennaModel Signal32Model TableModel.

(** The constructor of LineCurrentSegment, Current.hxx:1-7. *)
Definition line_segment (start_pos end_pos : f32 * f32 * f32) (start_time end_time charge : f32) : outcome segment32 :=
  if Bleb end_time start_time then Throws else Returns (Segment32 start_pos end_pos start_time end_time charge).
(** The loop over the times, 35-42: the tracks in the order in which they are given to AccumulateSignal.  [charge] is the function of lines 26-28.  [None]: the loop is not over after [fuel] rounds. *)
Fixpoint charge_loop (fuel : nat) (charge : f32 -> f32) (beta b delta_t tend cur_t : f32) : option (outcome (list segment32)) :=
  match fuel with
  | O => None
  | S fuel =>
    if Bltb cur_t tend then
      match line_segment (Bmult mode_NE beta cur_t, B754_zero false, b) (Bmult mode_NE beta (Bplus mode_NE cur_t delta_t), B754_zero false, b) cur_t (Bplus mode_NE cur_t delta_t) (charge cur_t) with
      | Returns track => obind (fun tracks => Returns (track :: tracks)) <$> charge_loop fuel charge beta b delta_t tend (Bplus mode_NE cur_t delta_t)
      | Throws => Some Throws
      | Undefined => Some Undefined
      end
    else Some (Returns [])
  end.
