(** Specification vocabulary: the targets in another order (exact arithmetic, C66). *)
From Coq Require Import Reals List Permutation.
From Verif Require Import Base Num ModelCommon ModelTree XR.
Local Open Scope R_scope.

(** [order] lists each of the [k] targets once. *)
Definition target_order (k : nat) (order : list nat) : Prop := Permutation order (seq 0 k).

(** The vector whose [j]-th entry is entry [nth j order] of [l]. *)
Definition rename (order : list nat) (l : list R) : list R := map (fun i => nth i l 0) order.

(** Two leaves with real outputs, the second the first renamed. *)
Definition renamed_leaf (order : list nat) (l l' : @grad_boost_leaf xr_ops) : Prop :=
  exists o, length o = length order /\ gl_output l = Some (map Fin o) /\ gl_output l' = Some (map Fin (rename order o)).
