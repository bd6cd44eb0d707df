(** * Specification vocabulary: vectors and matrices of real numbers

    Ordinary definitions of 3D Euclidean geometry, independent of the model's
    arithmetic. *)
From Coq Require Import Reals.
From Verif Require Import Num.
Local Open Scope R_scope.

Definition addR (a b : vec3 R) : vec3 R := V3 (vx a + vx b) (vy a + vy b) (vz a + vz b).
Definition subR (a b : vec3 R) : vec3 R := V3 (vx a - vx b) (vy a - vy b) (vz a - vz b).
Definition scaleR (k : R) (a : vec3 R) : vec3 R := V3 (k * vx a) (k * vy a) (k * vz a).
Definition dotR (a b : vec3 R) : R := vx a * vx b + vy a * vy b + vz a * vz b.
Definition crossR (a b : vec3 R) : vec3 R :=
  V3 (vy a * vz b - vz a * vy b) (vz a * vx b - vx a * vz b) (vx a * vy b - vy a * vx b).
Definition normR (a : vec3 R) : R := sqrt (dotR a a).
Definition zeroR : vec3 R := V3 0 0 0.

Definition mulvR (m : mat3 R) (v : vec3 R) : vec3 R :=
  V3 (dotR (row0 m) v) (dotR (row1 m) v) (dotR (row2 m) v).
Definition transposeR (m : mat3 R) : mat3 R :=
  M3 (V3 (vx (row0 m)) (vx (row1 m)) (vx (row2 m)))
     (V3 (vy (row0 m)) (vy (row1 m)) (vy (row2 m)))
     (V3 (vz (row0 m)) (vz (row1 m)) (vz (row2 m))).
Definition mulmR (a b : mat3 R) : mat3 R :=
  let t := transposeR b in
  M3 (mulvR t (row0 a)) (mulvR t (row1 a)) (mulvR t (row2 a)).
Definition idR : mat3 R := M3 (V3 1 0 0) (V3 0 1 0) (V3 0 0 1).
Definition detR (m : mat3 R) : R := dotR (row0 m) (crossR (row1 m) (row2 m)).

(** Proper rotations: orthogonal with determinant 1. *)
Definition rotation (m : mat3 R) : Prop :=
  mulmR m (transposeR m) = idR /\ mulmR (transposeR m) m = idR /\ detR m = 1.
