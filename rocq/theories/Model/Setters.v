(** Model of objects changed through their setters: Sphere, Plane and Ray of /repo/include/math. *)
From Coq Require Import List.
From Verif.Model Require Import Scalar Vec Simd Aabb Geometry Shapes.
Import ListNotations.

Section Setters.
  Context {F : Type} {S : Scalar F} (p : path).
  (** sphere.hpp:53 and 63 *)
  Inductive sphereCall := SetRadius (radius : F) | SetPosition (position : vec4 F).
  Definition callSphere (s : vec4 F) (c : sphereCall) : vec4 F :=
    match c with SetRadius r => setRadius s r | SetPosition v => setSpherePosition s v end.
  (** plane.hpp:81-84 and 94 *)
  Inductive planeCall := SetDistance (distance : F) | SetNormal (normal : vec4 F) (normalize : bool).
  Definition callPlane (pl : vec4 F) (c : planeCall) : vec4 F :=
    match c with SetDistance d => setDistance pl d | SetNormal v n => setNormal p pl v n end.
  (** ray.hpp:66-70; [SetOrigin] is an assignment to the public member of ray.hpp:40 *)
  Inductive rayCall := SetOrigin (origin : vec4 F) | SetDirection (direction : vec4 F) (normalize : bool).
  Definition callRay (r : ray F) (c : rayCall) : ray F :=
    match c with SetOrigin v => mkRay (rdir r) (rparallel r) v | SetDirection v n => setDirection p r v n end.
End Setters.
Arguments sphereCall F : clear implicits.
Arguments planeCall F : clear implicits.
Arguments rayCall F : clear implicits.
