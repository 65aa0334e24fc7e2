(** Vocabulary for the statements about the choice of solutions. *)
From Verif Require Import Base Float32 Sol_model.

(** Neither the prediction nor the simulation is invalidated. *)
Definition usable (d : dead) (s : solution) : Prop := s_gone s = false /\ d (s_sim s) = false.
(** The solution makes a goal fail that is stronger than the monitored one. *)
Definition damaging (now : Z) (mine : spec_float * Z) (s : solution) : Prop :=
  exists g, s_goal s = Some g /\ flt (per_time now mine) (per_time now g) = true.
(** No stored failure of the same simulation is damaging. *)
Definition harmless (now : Z) (mine : spec_float * Z) (st : stored) (s : solution) : Prop :=
  forall f, In f (fail_o st) -> s_gone f = false -> s_sim f = s_sim s -> ~ damaging now mine f.
(** The score of a solution: the confidence over the time that is left. *)
Definition score (now : Z) (sm : sims) (s : solution) : spec_float := per_time now (sm (s_sim s)).
Definition is_number (x : spec_float) : Prop := f32_valid x = true /\ x <> S754_nan.
Definition all_stored (st : stored) : list solution := fail_m st ++ fail_o st ++ good_m st ++ good_o st.
