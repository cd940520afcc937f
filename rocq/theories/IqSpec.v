(** The values and the points InterpExtrap2d takes. *)
From Verif Require Import Base EaModel EaSpec MwSpec IqModel.
From Coq Require Import QArith Qcanon.
Local Open Scope Z_scope.

(** One dimension, the elements one after the other. *)
Definition row_of (d : Z) (a : values) : Prop := v_dims a = 1 /\ a_dtype (v_items a) = d /\ plain (v_items a).
(** [m] points, or [n] rows of [m] points, one after the other. *)
Definition points_of (d : Z) (two : bool) (n m : Z) (g : grid) : Prop :=
  g_shape g = (if two then [n; m] else [m]) /\ g_flat g = true /\ a_dtype (g_items g) = d /\ plain (g_items g) /\ a_len (g_items g) = (if two then n * m else m).
(** What is refused whatever else is given, as long as the values have one dimension. *)
Definition bad_points (a : values) (p q : grid) : Prop :=
  length (g_shape p) <> length (g_shape q) \/ (2 < length (g_shape q))%nat \/ g_flat p = false \/ g_flat q = false \/
  (exists m1 m2, g_shape p = [m1] /\ g_shape q = [m2] /\ (m1 <> m2 \/ m1 < 2)) \/
  (exists n1 m1 n2 m2, g_shape p = [n1; m1] /\ g_shape q = [n2; m2] /\ (n1 <> a_len (v_items a) \/ n2 <> a_len (v_items a) \/ m1 <> m2 \/ m1 < 2)).
Definition bad_types (a : values) (p q : grid) : Prop :=
  a_dtype (g_items p) <> a_dtype (v_items a) \/ a_dtype (g_items q) <> a_dtype (v_items a) \/ ~ In (a_dtype (v_items a)) [11; 12].
