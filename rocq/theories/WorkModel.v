(** src/Recycler.cpp: the work space buffers that are kept between calls. WorkSpaceAllocLarge and WorkSpaceAllocSmall are the same
    function on two different globals; this is one of them. No proofs in this file. *)
From Verif Require Import Base.
Local Open Scope Z_scope.

(** [alive]: the buffers malloc returned and that were not freed, with their sizes; [glob], [gsize]: g_pHashTableAny and
    g_CurrentAllocHashTable (or g_pBitFields, g_CurrentAllocBitSize); [cached]: neither NoThreading nor NoCaching *)
Record ws := { fresh : nat; alive : list (nat * Z); glob : option nat; gsize : Z; cached : bool }.
Definition ws_init : ws := {| fresh := 0; alive := []; glob := None; gsize := 0; cached := true |}.
Definition set_alive a s := {| fresh := fresh s; alive := a; glob := glob s; gsize := gsize s; cached := cached s |}.
Definition set_glob g n s := {| fresh := fresh s; alive := alive s; glob := g; gsize := n; cached := cached s |}.

(* malloc *)
Definition malloc (size : Z) (s : ws) : nat * ws :=
  (fresh s, {| fresh := S (fresh s); alive := (fresh s, size) :: alive s; glob := glob s; gsize := gsize s; cached := cached s |}).
(* free; None: the buffer is not alive (freed twice) *)
Definition wfree (p : nat) (s : ws) : option ws :=
  if existsb (fun b => (fst b =? p)%nat) (alive s) then Some (set_alive (filter (fun b => negb (fst b =? p)%nat) (alive s)) s) else None.
Definition same (a b : option nat) : bool := match a, b with Some x, Some y => (x =? y)%nat | None, None => true | _, _ => false end.
(* Recycler.cpp:100-118 FreeWorkSpaceAllocLarge, 120-137 FreeWorkSpaceAllocSmall *)
Definition FreeWorkSpaceAlloc (p : option nat) (s : ws) : option ws :=
  if cached s then
    match glob s with
    | Some g => if same (Some g) p then match wfree g s with Some s' => Some (set_glob None 0 s') | None => None end else Some s
    | None => Some s
    end
  else match p with Some q => wfree q s | None => Some s end.
(* Recycler.cpp:143-174 WorkSpaceAllocLarge, 180-213 WorkSpaceAllocSmall; [ok]: malloc succeeds *)
Definition WorkSpaceAlloc (size : Z) (ok : bool) (s : ws) : option (option nat * ws) :=
  if cached s then
    match glob s with
    | Some g => if size <=? gsize s then Some (Some g, s)
                else if ok then let (p, s1) := malloc size s in match FreeWorkSpaceAlloc (glob s1) s1 with Some s2 => Some (Some p, s2) | None => None end
                else Some (None, s)
    | None => if ok then let (p, s1) := malloc size s in match FreeWorkSpaceAlloc (glob s1) s1 with Some s2 => Some (Some p, s2) | None => None end
              else Some (None, s)
    end
  else if ok then let (p, s1) := malloc size s in Some (Some p, s1) else Some (None, s).
(* Recycler.cpp:215-272 WorkSpaceFreeAllocLarge, 274-326 WorkSpaceFreeAllocSmall *)
Definition WorkSpaceFreeAlloc (p : nat) (size : Z) (s : ws) : option ws :=
  if cached s then
    match glob s with
    | None => Some (set_glob (Some p) size s)
    | Some g => if (g =? p)%nat then Some s
                else if gsize s <? size then match wfree g s with Some s' => Some (set_glob (Some p) size s') | None => None end
                else wfree p s
    end
  else wfree p s.
(* Recycler.cpp:944-975 RecycleGarbageCollectNow *)
Definition CollectNow (s : ws) : option ws := FreeWorkSpaceAlloc (glob s) s.

(** ** Callers *)

(** a caller asks for a buffer, returns the [i]-th buffer it holds, or caching is switched on or off *)
Inductive wop := WAlloc (size : Z) (ok : bool) | WFree (i : nat) | WMode (c : bool) | WCollect.
Definition wstep (o : wop) (s : ws) (held : list (nat * Z)) : option (ws * list (nat * Z)) :=
  match o with
  | WAlloc size ok => match WorkSpaceAlloc size ok s with
                      | Some (Some p, s') => Some (s', (p, size) :: held)
                      | Some (None, s') => Some (s', held)
                      | None => None
                      end
  | WFree i => match nth_error held i with
               | Some (p, size) => match WorkSpaceFreeAlloc p size s with Some s' => Some (s', firstn i held ++ skipn (S i) held) | None => None end
               | None => Some (s, held)
               end
  | WMode c => Some ({| fresh := fresh s; alive := alive s; glob := glob s; gsize := gsize s; cached := c |}, held)
  | WCollect => match CollectNow s with Some s' => Some (s', held) | None => None end
  end.
Fixpoint wrun (ops : list wop) (s : ws) (held : list (nat * Z)) : option (ws * list (nat * Z)) :=
  match ops with
  | [] => Some (s, held)
  | o :: ops' => match wstep o s held with Some (s', h) => wrun ops' s' h | None => None end
  end.
