(** Orders and counts of calls. *)
From Verif Require Import Base Run_model.
Local Open Scope nat_scope.
Local Open Scope list_scope.

(** [e] occurs exactly once. *)
Definition once {E} (l : list E) (e : E) : Prop := exists l1 l2, l = l1 ++ e :: l2 /\ ~ In e l1 /\ ~ In e l2.
(** Some [a] occurs before some [b]. *)
Definition earlier {E} (l : list E) (a b : E) : Prop := exists l1 l2 l3, l = l1 ++ a :: l2 ++ b :: l3.

Definition is_finish (e : call) : bool := match e with FinishNode _ | FinishComponent _ => true | _ => false end.
Definition is_multi_finish (e : multi_call) : bool := match e with MFinish _ => true | _ => false end.
(** All finishing comes at the end. *)
Definition finish_last {E} (f : E -> bool) (l : list E) : Prop := exists l1 l2, l = l1 ++ l2 /\ forallb (fun e => negb (f e)) l1 = true /\ forallb f l2 = true.
