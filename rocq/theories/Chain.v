(** Several selections one after the other: subset_flashes (glmtools/io/glm.py 478-532) of a
    GLMDataset made of the dataset that the last selection returned (185-187, 233-234). *)
From Coq Require Import List ZArith QArith Bool String.
From Verif Require Import Base Traversal Glm.
Import ListNotations.

Section Chain.
Variable set_order : list Z -> list Z.
Variable nav : fval -> fval -> fval * fval.

(** glm.py 153-252: a dataset in memory opened again, with calculate_parent_child,
    check_tree, check_area_units, change_energy_units (and fix_bad_DO07_times) False. *)
Definition reopen (h : header) (ds : list (table obs)) : res (header * list (table obs)) :=
  glm_open set_order nav (mkOptions false false false false) h ds.
(** glm.py 478-532: every selection is taken from the result of the one before. *)
Definition select_all (h : header) (ds : list (table obs)) (qs : list query) : res (list (table obs)) :=
  fold_res (fun ds q => glm <- reopen h ds ;; subset_flashes set_order (snd glm) q) qs ds.
End Chain.
