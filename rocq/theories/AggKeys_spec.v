(** What the functions given to recorders mean. *)
From Coq Require Import Strings.Ascii Strings.String.
From Verif Require Import Base Documents_model AggKeys_model.
Local Open Scope string_scope.
Local Open Scope list_scope.

(** Texts that differ in the case of letters only. *)
Definition same_letter (a b : ascii) : Prop :=
  a = b \/ (65 <= nat_of_ascii a <= 90 /\ nat_of_ascii b = nat_of_ascii a + 32)%nat \/ (65 <= nat_of_ascii b <= 90 /\ nat_of_ascii a = nat_of_ascii b + 32)%nat.
Inductive same_text : string -> string -> Prop :=
| same_nil : same_text "" ""
| same_cons a b s t : same_letter a b -> same_text s t -> same_text (String a s) (String b t).

(** The names of the documentation of Aggregator. *)
Inductive called : ftype -> string -> Prop :=
| c_sum : called Sum "sum" | c_min : called Min "min" | c_max : called Max "max" | c_mean : called Mean "mean" | c_median : called Median "median"
| c_product : called Product "product" | c_percentile : called Percentile "percentile" | c_score : called PercentileOfScore "percentileofscore"
| c_count : called CountNonzero "count_nonzero" | c_custom : called Custom "custom".

(** What an aggregator made of a text, dictionary or callable is. *)
Inductive denotes : given -> aggregator -> Prop :=
| d_text f n s : called f n -> same_text s n -> denotes (Text s) (Aggregator f None [] [])
| d_dict f n args kwargs : called f n -> denotes (Dict (Some n) args kwargs) (Aggregator f None args kwargs)
| d_call g : denotes (Callable g) (Aggregator Custom (Some g) [] []).

Definition is_given (kwargs : dict given) (k : string) (v : given) : Prop := get k kwargs = Some v.
Definition not_given (kwargs : dict given) (k : string) : Prop := get k kwargs = None.

(** The keyword that means the same as "temporal_agg_func" for recorders of duration curves. *)
Inductive old_name : family -> string -> Prop := o_flow : old_name FlowCurve "fdc_agg_func" | o_storage : old_name StorageCurve "sdc_agg_func".
Definition timed (c : family) : Prop := c = Array \/ c = Annual \/ c = FlowCurve \/ c = StorageCurve \/ c = Rolling.

(** The function meant for aggregating over time. *)
Inductive meant_for_time (c : family) (kwargs : dict given) : given -> Prop :=
| m_new v : timed c -> is_given kwargs "temporal_agg_func" v -> meant_for_time c kwargs v
| m_old k v : old_name c k -> is_given kwargs k v -> meant_for_time c kwargs v
| m_rolling v : c = Rolling -> not_given kwargs "temporal_agg_func" -> is_given kwargs "agg_func" v -> meant_for_time c kwargs v
| m_default : timed c -> not_given kwargs "temporal_agg_func" -> (forall k, old_name c k -> not_given kwargs k) ->
    (c = Rolling -> not_given kwargs "agg_func") -> meant_for_time c kwargs (Text (match c with Annual => "sum" | _ => "mean" end)).

(** The first keyword of a list that is given, or else a default. *)
Fixpoint first_of (kwargs : dict given) (keys : list string) (default : option given) (v : option given) : Prop :=
  match keys with
  | [] => v = default
  | k :: r => (exists w, is_given kwargs k w /\ v = Some w) \/ (not_given kwargs k /\ first_of kwargs r default v)
  end.
