(** Model of projects/ipdg_stokes/mesh/annulus_triag_mesh_builder.{h,cc}.  Coordinates are
    exact reals (doubles in the code), sizes are unbounded; kPi is the exact pi. *)
From Coq Require Import Reals List Arith Lia Bool.
Import ListNotations.
From Verif Require Import Base MeshModel BuilderModel.

(** annulus_triag_mesh_builder.h:85-90: the members that the setters (46-74) change. *)
Record annulus := mkAnnulus { an_inner : R; an_outer : R; an_radial : nat; an_angular : nat;
                              an_center : R * R }.

Section Build.
Variable p : annulus.
Let m := an_radial p.
Let n := an_angular p.

Local Open Scope R_scope.
(** annulus_triag_mesh_builder.cc:18-19 (dr, dphi) *)
Definition an_dr : R := (an_outer p - an_inner p) / INR m.
Definition an_dphi : R := 2 * PI / INR n.
(** annulus_triag_mesh_builder.cc:20-27 (node_position) *)
Definition node_position (r_idx phi_idx : nat) : coords :=
  [(an_inner p + INR r_idx * an_dr) * cos (INR phi_idx * an_dphi);
   (an_inner p + INR r_idx * an_dr) * sin (INR phi_idx * an_dphi)].
Local Open Scope nat_scope.

(** annulus_triag_mesh_builder.cc:30-38: node_count runs in parallel with the loops. *)
Definition annulus_vertices : bstate -> res bstate :=
  for_ (S m) (fun r_idx => for_ n (fun phi_idx s =>
    put_point (length (g_points (b_geo s))) (node_position r_idx phi_idx) s)).
(** annulus_triag_mesh_builder.cc:41-74; both geometries are made before the first
    AddEntity in the code, here each one before its own call. *)
Definition annulus_cells : bstate -> res bstate :=
  for_ m (fun r_idx => for_ n (fun phi_idx s =>
    let v1 := n * r_idx + phi_idx in
    let v2 := n * (r_idx + 1) + phi_idx in
    let v3 := n * (r_idx + 1) + (phi_idx + 1) mod n in
    let v4 := n * r_idx + (phi_idx + 1) mod n in
    do s' <- put_cell kTria [v1; v2; v4]
               [node_position r_idx phi_idx; node_position (r_idx + 1) phi_idx;
                node_position r_idx ((phi_idx + 1) mod n)] s;
    put_cell kTria [v2; v3; v4]
               [node_position (r_idx + 1) phi_idx; node_position (r_idx + 1) ((phi_idx + 1) mod n);
                node_position r_idx ((phi_idx + 1) mod n)] s')).
(** annulus_triag_mesh_builder.cc:13-77 (Build) *)
Definition annulus_build (check : bool) : res (option (mesh_obj * sites)) :=
  do s1 <- annulus_vertices (start check (n * (m + 1)));
  do s2 <- annulus_cells s1;
  finish s2.
End Build.
