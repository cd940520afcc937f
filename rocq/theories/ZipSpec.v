(** What is asked of compressing in memory. *)
From Verif Require Import Base SdsModel ZipModel.
Local Open Scope Z_scope.

(** ZSTD into a buffer of [cbound] bytes succeeds and can be undone; the size of the content is in the first bytes of a frame *)
Definition zstd_ok (z : zstd) : Prop :=
  (forall level sum x, pack z level sum (cbound z (len x)) x <> None) /\
  (forall level sum cap x y, pack z level sum cap x = Some y -> len y <= cap /\ unpack z (len x) y = Some x /\ forall rest, content z (y ++ rest) = Some (len x)).
(** a 1-dimensional array of [n] numbers or strings. The items follow each other if there is but one. *)
Definition plain (n : Z) (a : nd) : Prop :=
  n_dims a = [n] /\ 0 <= n_dtype a <= 19 /\ n_dtype a <> 17 /\ 1 <= n_item a < 2 ^ 31 /\ elsize (n_dtype a) (n_item a) = n_item a /\
  (n = 1 -> n_stride a = n_item a) /\ - 2 ^ 31 <= n_flags a < 2 ^ 31 /\ len (n_data a) = n * n_item a.
(** the same type, size of an item, dimensions and bytes *)
Definition same_array (a b : nd) : Prop := n_dtype a = n_dtype b /\ n_item a = n_item b /\ n_dims a = n_dims b /\ n_data a = n_data b.
Definition same_obj (o p : obj) : Prop := match o, p with OArr a, OArr b => same_array a b | ONone, ONone => True | _, _ => False end.
(** the level that ZSTD is asked for: 3 if none is given, at most 22 *)
Definition level_used (level l : Z) : Prop := level <= 0 /\ l = 3 \/ 1 <= level <= 22 /\ l = level \/ 22 < level /\ l = 22.
