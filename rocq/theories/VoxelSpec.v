(** Vocabulary for the voxel map. *)
From stdpp Require Import gmap list list_numbers option.
From Coq Require Import Reals ZArith NArith.
From Verif Require Import Real3 AABBModel AABBSpec VoxelModel.

(** Cells of the grid, and grids whose number of cells fits an int. *)
Definition in_grid (g : grid) (c : Z * Z * Z) : Prop :=
  (0 ≤ c.1.1 < g_nx g ∧ 0 ≤ c.1.2 < g_ny g ∧ 0 ≤ c.2 < g_nz g)%Z.
Definition grid_ok (g : grid) : Prop :=
  (0 < g_nx g ∧ 0 < g_ny g ∧ 0 < g_nz g ∧ g_nx g * g_ny g * g_nz g < 2 ^ 31)%Z.
(** Row-major number of a cell. *)
Definition cell_number (g : grid) (c : Z * Z * Z) : Z := (c.1.1 + g_nx g * c.1.2 + g_nx g * g_ny g * c.2)%Z.

(** Values recorded under a key, in order. *)
Definition recorded {P} (k : Z) (h : list (Z * P)) : list P := snd <$> filter (λ e, e.1 = k) h.
(** The entries of each key are consecutive. *)
Definition grouped {P} (h : list (Z * P)) : Prop :=
  ∀ i j l a b c, (i < j < l)%nat → h !! i = Some a → h !! j = Some b → h !! l = Some c → a.1 = c.1 → b.1 = a.1.
(** The last uninterrupted run of a key. *)
Fixpoint drop_while {A} (f : A → bool) (l : list A) : list A := match l with x :: r => if f x then drop_while f r else l | [] => [] end.
Fixpoint take_while {A} (f : A → bool) (l : list A) : list A := match l with x :: r => if f x then x :: take_while f r else [] | [] => [] end.
Definition last_run {P} (k : Z) (h : list (Z * P)) : list P :=
  snd <$> rev (take_while (λ e, e.1 =? k)%Z (drop_while (λ e, negb (e.1 =? k)%Z) (rev h))).

(** std::sort by key: some rearrangement in ascending order. *)
Definition sorts_keys {P} (srt : list (Z * P) → list (Z * P)) : Prop :=
  ∀ l, srt l ≡ₚ l ∧ ∀ i j a b, (i < j)%nat → srt l !! i = Some a → srt l !! j = Some b → (a.1 ≤ b.1)%Z.

(** The first daughter, in the order of the list, whose box strictly contains the point and which accepts it. *)
Definition strictly_in (b : aabb) (p : v3) : Prop :=
  (vx (bmin b) < vx p < vx (bmax b) ∧ vy (bmin b) < vy p < vy (bmax b) ∧ vz (bmin b) < vz p < vz (bmax b))%R.
Definition eligible (boxes : list aabb) (dau : list N) (p : v3) (accept : N → option v3) (i : nat) (v : N) (q : v3) : Prop :=
  ∃ b, boxes !! i = Some b ∧ strictly_in b p ∧ dau !! i = Some v ∧ accept v = Some q.
Definition first_eligible (boxes : list aabb) (dau : list N) (p : v3) (accept : N → option v3) (r : option (N * v3)) : Prop :=
  match r with
  | None => ∀ i v q, ¬ eligible boxes dau p accept i v q
  | Some (v, q) => ∃ i, eligible boxes dau p accept i v q ∧ ∀ j v' q', (j < i)%nat → ¬ eligible boxes dau p accept j v' q'
  end.
