(** PiecewiseLink, nodes.py 760-887: the nodes it consists of. *)
From Verif Require Import Base LP_model Connect_model.
Local Open Scope nat_scope.
Local Open Scope list_scope.

(** The node itself, its Output and Input in the domain of the model, and the Output and the Inputs (one for each step) in a domain of
    their own, 800-827. *)
Record piecewise := Piecewise { p_self : nat; p_output : nat; p_input : nat; p_sub : nat; p_links : list nat }.

(** What the constructor adds to the graph, 811 and 820-828, and the slots 874-878. *)
Definition new_piecewise (w : world) (p : piecewise) : world :=
  let k := fun n => if Nat.eqb n (p_self p) then Through (p_input p) (p_output p)
                    else if existsb (Nat.eqb n) (p_output p :: p_input p :: p_sub p :: p_links p) then Plain else kind_of w n in
  fold_left (fun w s => add_edge (add_edge w (s, p_sub p)) (p_output p, s)) (p_links p)
    (add_edge (World (model_of w) k (edges w) (dirty w)) (p_sub p, p_input p)).
