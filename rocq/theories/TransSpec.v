(** Vocabulary for transformations. *)
From Coq Require Import Reals Bool.
From Verif Require Import Real3 TransModel.
Local Open Scope R_scope.

Definition row0 (t : trans) := V3 (r0 t) (r1 t) (r2 t).
Definition row1 (t : trans) := V3 (r3 t) (r4 t) (r5 t).
Definition row2 (t : trans) := V3 (r6 t) (r7 t) (r8 t).
(** The rotation part has orthonormal rows. *)
Definition ortho (t : trans) : Prop :=
  vdot (row0 t) (row0 t) = 1 /\ vdot (row1 t) (row1 t) = 1 /\ vdot (row2 t) (row2 t) = 1 /\
  vdot (row0 t) (row1 t) = 0 /\ vdot (row0 t) (row2 t) = 0 /\ vdot (row1 t) (row2 t) = 0.
(** A missing flag means that the part is exactly neutral; fIdentity is their conjunction. *)
Definition flags_ok (t : trans) : Prop :=
  idn t = negb (hast t) && negb (hasr t) /\
  (hast t = false -> t0 t = 0 /\ t1 t = 0 /\ t2 t = 0) /\
  (hasr t = false -> row0 t = V3 1 0 0 /\ row1 t = V3 0 1 0 /\ row2 t = V3 0 0 1).
(** Same map. *)
Definition same_map (a b : trans) : Prop :=
  t0 a = t0 b /\ t1 a = t1 b /\ t2 a = t2 b /\ row0 a = row0 b /\ row1 a = row1 b /\ row2 a = row2 b.
(** A number that the tolerance comparisons treat as what it is. *)
Definition clear_cut (x : R) : Prop := x = 0 \/ kTolerance < Rabs x.
Definition clear_rotation (t : trans) : Prop :=
  clear_cut (r0 t) /\ clear_cut (r1 t) /\ clear_cut (r2 t) /\ clear_cut (r3 t) /\ clear_cut (r4 t) /\
  clear_cut (r5 t) /\ clear_cut (r6 t) /\ clear_cut (r7 t) /\ clear_cut (r8 t).
Definition clear_translation (t : trans) : Prop := clear_cut (t0 t) /\ clear_cut (t1 t) /\ clear_cut (t2 t).
(** Component-wise distance at most [e]. *)
Definition near (e : R) (a b : v3) : Prop :=
  Rabs (vx a - vx b) <= e /\ Rabs (vy a - vy b) <= e /\ Rabs (vz a - vz b) <= e.
Definition norm1 (a : v3) : R := Rabs (vx a) + Rabs (vy a) + Rabs (vz a).
(** Elementary rotation matrices (row by row) for an angle in degrees. *)
Record m3 := M3 { mr0 : v3; mr1 : v3; mr2 : v3 }.
Definition rot_z (a : R) : m3 :=
  M3 (V3 (cos (kDegToRad * a)) (- sin (kDegToRad * a)) 0) (V3 (sin (kDegToRad * a)) (cos (kDegToRad * a)) 0) (V3 0 0 1).
Definition rot_x (a : R) : m3 :=
  M3 (V3 1 0 0) (V3 0 (cos (kDegToRad * a)) (- sin (kDegToRad * a))) (V3 0 (sin (kDegToRad * a)) (cos (kDegToRad * a))).
Definition rot_y (a : R) : m3 :=
  M3 (V3 (cos (kDegToRad * a)) 0 (sin (kDegToRad * a))) (V3 0 1 0) (V3 (- sin (kDegToRad * a)) 0 (cos (kDegToRad * a))).
Definition mcol (m : m3) : m3 :=
  M3 (V3 (vx (mr0 m)) (vx (mr1 m)) (vx (mr2 m))) (V3 (vy (mr0 m)) (vy (mr1 m)) (vy (mr2 m))) (V3 (vz (mr0 m)) (vz (mr1 m)) (vz (mr2 m))).
Definition mrow (m : m3) (r : v3) : v3 := V3 (vdot r (mr0 (mcol m))) (vdot r (mr1 (mcol m))) (vdot r (mr2 (mcol m))).
Definition mmul (a b : m3) : m3 := M3 (mrow b (mr0 a)) (mrow b (mr1 a)) (mrow b (mr2 a)).
Definition rot_of (t : trans) : m3 := M3 (row0 t) (row1 t) (row2 t).
