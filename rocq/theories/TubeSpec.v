(** What a tube is, stated without the kernels. *)
From Coq Require Import Reals.
From Verif Require Import Real3 ConeSpec WedgeSpec TubeModel.
Local Open Scope R_scope.

(** The sector from the angle [s] to the angle [s + d] without its sides. *)
Definition open_sector (s d x y : R) : Prop := exists phi r, s < phi < s + d /\ 0 < r /\ x = r * cos phi /\ y = r * sin phi.
(** The sector widened on both sides by [h]: not more than [h] to the right of the start line and to the left of the end line
    (up to half a turn), or one of the two (above). *)
Definition wide_sector (h s d x y : R) : Prop :=
  (d <= PI -> - h <= side s x y /\ side (s + d) x y <= h) /\ (PI < d -> - h <= side s x y \/ side (s + d) x y <= h).
Section Tube.
(** Radii, half length, start angle and opening. *)
Variables m M Z s d : R.
(** The points of the tube.  The inner surface does not belong to it, the rest of the border does; a full turn takes all
    directions. *)
Definition tube_solid (p : v3) : Prop :=
  Rabs (vz p) <= Z /\ rho p <= M /\ (0 < m -> m < rho p) /\ (d < 2 * PI -> sector s d (vx p) (vy p)).
(** With and without all of the border. *)
Definition tube_closed (p : v3) : Prop :=
  Rabs (vz p) <= Z /\ m <= rho p <= M /\ (d < 2 * PI -> sector s d (vx p) (vy p)).
Definition tube_core (p : v3) : Prop :=
  Rabs (vz p) < Z /\ rho p < M /\ (0 < m -> m < rho p) /\ (d < 2 * PI -> open_sector s d (vx p) (vy p)).
(** The tube with its border thickened by [h]. *)
Definition tube_wide (h : R) (p : v3) : Prop :=
  Rabs (vz p) <= Z + h /\ m - h <= rho p <= M + h /\ (d < 2 * PI -> wide_sector h s d (vx p) (vy p)).
End Tube.
(** The type of the kernels fits the inner radius and the opening. *)
Definition angle_fits (a : angle_type) (d : R) : Prop :=
  match a with kNoAngle => d = 2 * PI | kSmallerThanPi => d < PI | kOnePi => d = PI | kBiggerThanPi => PI < d < 2 * PI | kUnknownAngle => True end.
Definition tube_fits (k : tube_type) (m d : R) : Prop :=
  match k with UniversalTube => True | NonHollow a => m = 0 /\ angle_fits a d | Hollow a => angle_fits a d end.
