(** * The options of a beam, as documented *)
From Coq Require Import Reals String DecimalString.
From Verif Require Import Common M_Beam.
Open Scope string_scope.

(** Options that are stored as given, with their defaults. *)
Definition stored_options : dict :=
  [("az", VNum 0); ("el", VNum 0); ("polang", VNum 0); ("polang_error", VNum 0);
   ("name", VNone); ("pol", VStr "A"); ("btype", VStr "Gaussian"); ("dead", VBool false);
   ("amplitude", VNum 1); ("po_file", VNone); ("eg_file", VNone);
   ("cross_pol", VBool true); ("deconv_q", VBool true); ("normalize", VBool true); ("symmetric", VBool false);
   ("sensitive_freq", VNum 150); ("hwp", VNone); ("hwp_mueller", VNone)].
(** All of them. *)
Definition beam_options : list string := (map fst stored_options ++ ["lmax"; "mmax"; "fwhm"; "ghost"; "idx"])%list.

(** Values the options accept: a band limit (integer), possibly none for the
    azimuthal one; a width, which can be left out unless the band limit is
    zero; an identifier; whether it is a ghost. *)
Definition acceptable (kw : dict) : Prop :=
  (dget kw "lmax" = None \/ exists z, dget kw "lmax" = Some (VInt z))
  /\ (dget kw "mmax" = None \/ dget kw "mmax" = Some VNone \/ exists z, dget kw "mmax" = Some (VInt z))
  /\ ((exists x, dget kw "fwhm" = Some (VNum x))
      \/ ((dget kw "fwhm" = None \/ dget kw "fwhm" = Some VNone) /\ forall z, dget kw "lmax" = Some (VInt z) -> (0 < z)%Z))
  /\ (dget kw "idx" = None \/ dget kw "idx" = Some VNone \/ exists z, dget kw "idx" = Some (VInt z))
  /\ (dget kw "ghost" = None \/ exists b, dget kw "ghost" = Some (VBool b)).

(** A beam made with some options: every stored option is as given or has its
    default, the band limits and the width follow the rules, the identifier and
    the mark of a ghost are as given, and there are no ghosts. *)
Definition made_with (kw : dict) (b : beam) : Prop :=
  (forall k d, In (k, d) stored_options -> attrs b k = Some (match dget kw k with Some v => v | None => d end))
  /\ (exists l, attrs b "lmax" = Some (VInt l)
        /\ l = match dget kw "lmax" with Some (VInt z) => Z.max z 0 | _ => 700%Z end
        /\ attrs b "mmax" = Some (VInt (match dget kw "mmax" with Some (VInt m) => Z.min m l | _ => l end))
        /\ attrs b "fwhm" = Some (VNum (match dget kw "fwhm" with Some (VNum x) => Rabs x
             | _ => 1.4 * 2 * PI / IZR l * (180 / PI) * 60 end)%R))
  /\ idx b = match dget kw "idx" with Some (VInt z) => Some z | _ => None end
  /\ ghost b = match dget kw "ghost" with Some (VBool g) => g | _ => false end
  /\ ghosts b = [].

(** Detector number [k] of the arrays [input_focal_plane] takes. *)
Definition decimal (k : nat) : string := NilEmpty.string_of_uint (Nat.to_uint k).
Definition described (az el polang : R) (dead : bool) (pol : string) (k : nat) : dict :=
  [("az", VNum az); ("el", VNum el); ("polang", VNum polang); ("dead", VBool dead); ("pol", VStr pol);
   ("name", VStr ("det" ++ decimal k)); ("idx", VInt (Z.of_nat k))].
(** Options those arrays fix. *)
Definition fixed : list string := ["az"; "el"; "polang"; "dead"; "pol"; "name"; "idx"].
