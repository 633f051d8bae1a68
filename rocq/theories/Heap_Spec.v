(** Words for programs with several schedulers on one heap. *)
From Coq Require Import List ZArith QArith Bool Arith.
From Verif Require Import Py Sched_Model Alns_Model Sess_Model Heap_Model.
Import ListNotations.
Open Scope list_scope.

(** The object at [a] is a request handler whose requests, read through its list, are those of
    [h]; no request occurs twice. *)
Definition reads (H : heap) (a : addr) (h : handler) : Prop :=
  exists la l, nth_error H a = Some (OHandler la (h_n h) (h_nsched h)) /\ nth_error H la = Some (OList l) /\
    Forall2 (fun x r => nth_error H x = Some (ORequest r)) l (reqs h) /\ NoDup l.
(** The objects a handler is made of. *)
Definition parts (H : heap) (a : addr) : list addr :=
  a :: match nth_error H a with
       | Some (OHandler la _ _) => la :: match nth_error H la with Some (OList l) => l | _ => [] end
       | _ => []
       end.
(** Nothing that existed in [H] is different in [H'] ... *)
Definition kept (H H' : heap) : Prop := forall x o, nth_error H x = Some o -> nth_error H' x = Some o.
(** ... except possibly the parts of the handler at [a]. *)
Definition kept_but (a : addr) (H H' : heap) : Prop :=
  forall x o, nth_error H x = Some o -> ~ In x (parts H a) -> nth_error H' x = Some o.
(** Handlers without a common part. *)
Definition apart (H : heap) (a b : addr) : Prop := forall x, In x (parts H a) -> ~ In x (parts H b).

(** The schedulers a program creates, the calls it makes to the [i]-th after its creation
    ([n] exist already), and the answers to them. *)
Fixpoint creations (acts : list action) : list (sky * Q) :=
  match acts with
  | [] => []
  | Create sat th :: r => (sat, th) :: creations r
  | Call _ _ :: r => creations r
  end.
Fixpoint calls_to (i n : nat) (acts : list action) : list call :=
  match acts with
  | [] => []
  | Create _ _ :: r => calls_to i (S n) r
  | Call j c :: r => if (j =? i)%nat && (i <? n)%nat then c :: calls_to i n r else calls_to i n r
  end.
Definition answers_to (i : nat) (l : list (nat * answer)) : list answer :=
  map snd (filter (fun x => (fst x =? i)%nat) l).
