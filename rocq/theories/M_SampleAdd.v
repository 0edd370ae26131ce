(** Model of SampleAddFeaturizer.{h,cpp}: the sample estimator, and its transformer. *)
From Verif Require Import Base M_Estimator M_Codec M_Save.

(** SampleAddFeaturizer.cpp:74-84: [_accumulated_delta += *pBuffer] for each of the items, an uint32_t. *)
Definition sample_fit (delta : Z) (xs : list Z) : Z := fold_left (fun d x => to_u 4 (d + x)) xs delta.
(** 70-95; [on_data_completed_impl] is the one of Featurizer.h:827-830. *)
Definition sample_impl : impl Z Z Z :=
  mkImpl (fun d => (d, Ok true)) (fun d xs => (sample_fit d xs, Ok FitContinue)) (fun d => (d, Ok true)) (fun d => (d, Ok tt)) (fun d => (d, Ok (Some d))).
(** 60-63: [input + Delta]: an uint16_t, promoted, and an uint32_t. *)
Definition sample_exec (delta input : Z) : Z := to_u 4 (input + delta).
(** 49-56, 32-46. *)
Definition sample_save (delta : Z) : list Z := k_save KSampleAdd (VInt delta).
Definition sample_load (bytes : list Z) : res (Z * list Z) :=
  do p <- k_load KSampleAdd bytes; match fst p with VInt d => Ok (d, snd p) | _ => UB end.
