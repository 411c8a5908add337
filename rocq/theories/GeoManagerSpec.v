(** What the geometry manager should do, stated on histories and on paths. *)
From stdpp Require Import list option gmap fin_maps.
From Coq Require Import NArith ZArith.
From Verif Require Import GeoManagerModel.
Local Open Scope N_scope.

(** * Registration histories
    What a history means for one kind of volumes: creation at an address with some data,
    destruction, closing, clearing of the manager. *)
Section Events.
Context {D : Type}.
Inductive ev := ENew (a : N) (d : D) | EDel (a : N) | EClose | EClear | EOther.
Definition is_new (e : ev) : bool := match e with ENew _ _ => true | _ => false end.
Definition is_close (e : ev) : bool := match e with EClose => true | _ => false end.
(** The events after the last clearing. *)
Definition since_clear (es : list ev) : list ev :=
  foldl (λ acc e, match e with EClear => [] | _ => acc ++ [e] end) [] es.
(** The number of creations after the last clearing: the next volume should get this id. *)
Definition nnew (es : list ev) : N := N.of_nat (length (List.filter is_new (since_clear es))).
Definition closed (es : list ev) : bool := existsb is_close (since_clear es).
(** [a] was created with data [d] as number [i] since the last clearing and lives. *)
Definition born (es : list ev) (a : N) (d : D) (i : N) : Prop :=
  ∃ es1 es2, es = es1 ++ ENew a d :: es2 ∧ i = nnew es1 ∧ EDel a ∉ es2 ∧ EClear ∉ es2.
(** As before, and the geometry was not closed at the time. *)
Definition registered (es : list ev) (a : N) (d : D) (i : N) : Prop :=
  ∃ es1 es2, es = es1 ++ ENew a d :: es2 ∧ i = nnew es1 ∧ EDel a ∉ es2 ∧ EClear ∉ es2 ∧ closed es1 = false.
(** No volume created before a clearing is destroyed after it. *)
Definition no_stale (es : list ev) : Prop :=
  ∀ es1 a es2, es = es1 ++ EDel a :: es2 → ∃ d, ENew a d ∈ since_clear es1.
End Events.
Arguments ev : clear implicits.

Section Projections.
Context {T Sh : Type}.
(** Placed volumes are created with a label, a logical volume and a transformation. *)
Definition pev (o : op T Sh) : ev (N * N * T) :=
  match o with
  | NewP a label lv tr => ENew a (label, lv, tr)
  | DelP a => EDel a | Close _ => EClose | Clear => EClear | _ => EOther
  end.
(** Logical volumes are created with a label and an unplaced volume. *)
Definition lev (o : op T Sh) : ev (N * N) :=
  match o with
  | NewL l label u => ENew l (label, u)
  | DelL l => EDel l | Close _ => EClose | Clear => EClear | _ => EOther
  end.

(** No volume created before a Clear is destroyed after it; fewer than 2^32 steps. *)
Definition proper (os : list (op T Sh)) : Prop :=
  no_stale (map pev os) ∧ no_stale (map lev os) ∧ N.of_nat (length os) < 4294967296.
(** Histories that only build. *)
Definition builds (o : op T Sh) : bool :=
  match o with NewU _ _ | NewL _ _ _ | NewP _ _ _ _ | PlaceD _ _ | SetWorld _ => true | _ => false end.

(** * Hierarchies in the heap
    The placed volume reached from [p] by daughter numbers [ks]. *)
Fixpoint walk {P} (dau : P → option (list P)) (p : P) (ks : list nat) : option P :=
  match ks with
  | [] => Some p
  | k :: r => ds ← dau p; d ← ds !! k; walk dau d r
  end.
(** What a user sees of the volume at a path from the world. *)
Definition node (s : gm T Sh) (ks : list nat) : option (pvol T) :=
  w ← g_world s; p ← walk (daughters s) w ks; g_pheap s !! p.
(** The placed volumes a shape consists of. *)
Definition parts (s : gm T Sh) (u : N) : option (list (option (pvol T))) :=
  sh ← g_uheap s !! u; Some ((λ p, g_pheap s !! p) <$> shape_parts sh).
(** The shape itself, apart from where its placed volumes are. *)
Inductive kind := KSimple (s : Sh) | KBoolean (op : N) | KScaled.
Definition kind_of (u : shape Sh) : kind :=
  match u with Simple s => KSimple s | Boolean op _ _ => KBoolean op | Scaled _ => KScaled end.
(** Every volume of the hierarchy is registered under its id. *)
Definition whole (s : gm T Sh) : Prop :=
  ∀ w ks p, g_world s = Some w → walk (daughters s) w ks = Some p →
    ∃ v l, g_pheap s !! p = Some v ∧ find_placed s (pv_id v) = Some p ∧
      g_lheap s !! pv_lv v = Some l ∧ find_logical s (lv_id l) = Some (pv_lv v).
End Projections.

(** * Paths of a hierarchy *)
(** The volumes passed when going down from [p]; the first is [p]. *)
Fixpoint trace {P} (dau : P → option (list P)) (p : P) (ks : list nat) : option (list P) :=
  match ks with
  | [] => Some [p]
  | k :: r => ds ← dau p; d ← ds !! k; l ← trace dau d r; Some (p :: l)
  end.
(** [kss] lists the paths from [p] that satisfy [Q], each once. *)
Definition enumerates {P} (dau : P → option (list P)) (p : P) (Q : P → Prop) (kss : list (list nat)) : Prop :=
  NoDup kss ∧ ∀ ks, ks ∈ kss ↔ ∃ q, walk dau p ks = Some q ∧ Q q.
(** No path from [p] is longer than [n]. *)
Definition depth_below {P} (dau : P → option (list P)) (p : P) (n : nat) : Prop :=
  ∀ ks, is_Some (walk dau p ks) → (length ks < n)%nat.
