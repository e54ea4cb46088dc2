From Verif Require Import Base Polynomial_model Polynomial_spec Polynomial_proofs.
Local Open Scope Q_scope.
Local Open Scope list_scope.

(** C92: the value is that of the polynomial at the scaled and shifted input. *)
Theorem C92_value : forall s coefficients scale offset v x, input_of s v = Some x ->
  exists y, value1 s coefficients scale offset v = Some y /\ y == horner (x * scale + offset) coefficients.
Proof. intros s cs scale offset v x H. unfold value1. rewrite H. eexists. split; [reflexivity|]. apply poly1_horner. Qed.
Print Assumptions C92_value.

(** Which input: the one that is given, and no more than one may be. *)
Theorem C92_input : forall node storage parameter proportional v,
  match make_source node storage parameter proportional with
  | None => (node = true /\ storage = true) \/ (node = true /\ parameter = true) \/ (storage = true /\ parameter = true)
  | Some s => ~ (node = true /\ storage = true) /\ ~ (node = true /\ parameter = true) /\ ~ (storage = true /\ parameter = true) /\
      (parameter = true -> input_of s v = Some (v_parameter v)) /\
      (storage = true -> input_of s v = Some (if proportional then v_pc v else v_volume v)) /\
      (node = true -> input_of s v = Some (v_flow v))
  end.
Proof. intros [] [] [] p v; cbn; intuition congruence. Qed.
Print Assumptions C92_input.

(** Two dimensions: a polynomial in the volume whose coefficients are polynomials in the parameter. *)
Theorem C92_two_dimensions : forall proportional coefficients ss so ps po v, rectangular coefficients = true ->
  value2 proportional coefficients ss so ps po v ==
  horner (ss * (if proportional then v_pc v else v_volume v) + so) (map (horner (ps * v_parameter v + po)) coefficients).
Proof. intros. unfold value2. now apply poly2_horner. Qed.
Print Assumptions C92_two_dimensions.

(** The flow of a node is zero whenever the parameter is calculated: in every timestep of every run the polynomial is taken at the offset. *)
Theorem C92_node_flow : forall coefficients scale offset flows t, (t < length flows)%nat ->
  exists v, nth_error (run1 OfNode coefficients scale offset node_reset flows) t = Some (Some v) /\ v == horner offset coefficients.
Proof. intros. now apply run1_node. Qed.
Print Assumptions C92_node_flow.

(** ... not at the flow of the timestep before, which the documentation promises. *)
Theorem C92_previous_flow_refuted : exists coefficients flows t previous v, nth_error flows t = Some previous /\
  nth_error (run1 OfNode coefficients 1 0 node_reset flows) (S t) = Some (Some v) /\ ~ v == horner previous coefficients.
Proof. exists [0; 1], [5; 7], 0%nat, 5, 0. repeat split. discriminate. Qed.
Print Assumptions C92_previous_flow_refuted.

(** With neither node, storage nor parameter there is nothing to read. *)
Theorem C92_default_refuted : exists s, make_source false false false false = Some s /\
  forall coefficients scale offset v, value1 s coefficients scale offset v = None.
Proof. exists OfOwnNode. split; reflexivity. Qed.
Print Assumptions C92_default_refuted.

(** 1/2 + 3 x + 2 x² at 2 * 4 - 1; and x y² + 2 y for x = 3, y = 5. *)
Example C92_example : option_map Qred (value1 OfParameter [1 # 2; 3; 2] 2 (- (1)) (Seen 4 0 0 0)) = Some (239 # 2).
Proof. reflexivity. Qed.
Example C92_example_two : Qred (value2 false [[0; 2; 0]; [0; 0; 1]] 1 0 1 0 (Seen 5 3 0 0)) = 85.
Proof. reflexivity. Qed.
