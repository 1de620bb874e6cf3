(** * The named half-wave plates, layer by layer *)
From Coq Require Import Reals List String.
Import ListNotations.
Open Scope R_scope.

(** A layer: thickness (mm), the two refractive indices, the two loss tangents,
    angle of the axis (degrees). *)
Record plate_layer := mklayer { pl_mm : R; pl_index : R * R; pl_loss : R * R; pl_deg : R }.
Definition coating (t n : R) : plate_layer := mklayer t (n, n) (0.0012, 0.0012) 0.
Definition sapphire (t deg : R) : plate_layer := mklayer t (3.019, 3.336) (0.00023, 0.000125) deg.
(** Coatings (thickness and index) on both sides of sapphire plates of one
    thickness. *)
Definition coated (c : list (R * R)) (t : R) (degs : list R) : list plate_layer :=
  (map (fun x => coating (fst x) (snd x)) c ++ map (sapphire t) degs ++ rev (map (fun x => coating (fst x) (snd x)) c))%list.

Definition equal_coatings : list (R * R) := [(0.5, 1.268); (0.31, 1.979); (0.257, 2.855)].
Definition plates : list (string * list plate_layer) :=
  [("SPIDER_95", coated [(0.427, 1.951)] 4.93 [0]);
   ("SPIDER_150", [coating 0.254 1.935; mklayer 0.006 (1.51, 1.51) (0.001, 0.001) 0; sapphire 3.16 0;
      mklayer 0.006 (1.51, 1.51) (0.001, 0.001) 0; coating 0.254 1.935]);
   ("3AR1BRopti", coated [(0.358, 1.524); (1.849, 2.644); (1.978, 3.439)] 3.6 [0]);
   ("1BR", coated equal_coatings 3.75 [0]);
   ("3AR3BRopti", coated [(0.338, 1.344); (0.132, 1.542); (0.24, 2.35)] 3.86 [0; 52.5; 0]);
   ("3BR", coated equal_coatings 3.75 [0; 54; 0]);
   ("3AR5BRopti", coated [(0.356, 1.279); (0.225, 1.782); (0.188, 2.511)] 3.86 [0; 29; 94.5; 29; 2]);
   ("3AR5BRstd", coated equal_coatings 3.75 [0; 26.5; 94.8; 28.1; -2.6]);
   ("5BR", coated equal_coatings 3.75 [22.9; -50; 0; 50; -22.9])]%string.
