(** Model of demos/robot/step1_train_dmp_from_trajectory_file.py and step3_tune_exploration.py: the
    samples of an exploration, saved as DMPs for the robot. *)
From Coq Require Import String.
From Verif Require Import Base SessionModel ParamModel FaModel TrajModel DmpModel CppModel.
Open Scope string_scope.

(** step3 l.85, 88: the name of the file for the C++ program *)
Definition sample_name (i : nat) : string := fmt 2 (Z.of_nat i) ++ "_dmp_for_cpp.json".
(** step3 l.81-88. [samples] are the rows of generate_samples (l.63), and [kinds] the classes of the
    function approximators. The same DMP is changed again and again. Result: the files for the C++ program,
    as pairs of a name and a content. Simplification: without --show, --save and --traj; the directory
    is new and the second file of each sample (for Python) is left out. *)
Fixpoint tune (kinds : nat -> fa_kind) (m : dmp) (i : nat) (samples : list (list R)) : res (list (string * json)) :=
  match samples with
  | [] => Ok []
  | v :: rest =>
    match m_set_params m v with
    | (_, Err e) => Err e
    | (m', Ok _) => let* files := tune kinds m' (S i) rest in Ok ((sample_name i, dmp_json kinds m') :: files)
    end
  end.
(** step1 l.54-58: [ns] basis functions for each dimension, KULVICIUS_2012_JOINING, and the names of the
    parameters that are optimized. *)
Definition step1 (pf : nat -> list (string * pval) -> R -> res R) (tf : nat -> list R -> list R -> res (list (string * pval)))
  (t : traj) (fas : list fa) : res dmp :=
  let* m := from_traj pf tf Kulvicius t (Some fas) no_kw in Ok (m_select m (NStr "weights")).
