(** Specification vocabulary for exploration around a DMP. *)
From Coq Require Import String.
From Verif Require Import Base ParamModel FaModel TrajModel DmpModel CppModel.
Open Scope string_scope.

(** parameters which do not move the basis functions *)
Definition movement_names : list string := ["weights"; "slopes"; "offsets"].
(** what is selected in the function approximators does not move basis functions, and there are no
    trained function approximators without a dimension *)
Definition explorable (m : dmp) : Prop :=
  forall fs, m_fas m = Some fs -> forall i f, nth_error fs i = Some f -> is_trained f = true ->
    (i < m_dim m)%nat /\ incl (match f_sel f with Some l => l | None => [] end) movement_names.
