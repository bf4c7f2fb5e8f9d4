(** Model of the values that the options of examples/glm-lasso-stats.py have when they are not
    given. *)
From Coq Require Import ZArith QArith.
From Verif Require Import LassoTable.
Open Scope Z_scope.

(** glm-lasso-stats.py 32-50: the defaults of --minalt, --maxalt, --minenergy, --maxenergy, --minarea,
    --maxarea, --nevents and --ngroups.  1.0e38 is taken as exact. *)
Definition default_options : stat_options :=
  mkOpts (0, inject_Z (10 ^ 10))%Q (inject_Z (-1), inject_Z 100)%Q (0, inject_Z (10 ^ 38))%Q 1 1.
