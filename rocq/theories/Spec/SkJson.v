(** What a scikit-learn document must contain, in terms of its members. *)
From Coq Require Import String List Arith Bool ZArith.
From Verif Require Import Base.Num Model.SkJson.
Import ListNotations.
Local Open Scope string_scope.
Local Open Scope list_scope.

Section Spec.
Context {N : Num}.

(** The members of an object, no two of them with the same name (ignoring case). *)
Definition distinct (ms : list (string * json N)) : Prop := NoDup (map (fun m => lower (fst m)) ms).
(** [ms] has the member [k] with value [v]. *)
Definition has (ms : list (string * json N)) (k : string) (v : json N) : Prop :=
  exists name, In (name, v) ms /\ lower name = k.
Definition lacks (ms : list (string * json N)) (k : string) : Prop := forall v, ~ has ms k v.

(** A number, null reading as zero. *)
Definition number (v : json N) (x : N) : Prop :=
  (exists i, v = JNum x i /\ nisinf x = false) \/ (v = JNull /\ x = n0).

(** The document describes the linear regression with coefficients [cs] and intercept [b]. *)
Definition describes (j : json N) (cs : list N) (b : N) : Prop :=
  exists ms spec params coefs x,
    j = JObj ms /\ has ms "model_spec" (JObj spec) /\ has ms "params" (JObj params)
    /\ has spec "name" (JStr "LinearRegression") /\ has spec "format_version" (JStr "1.0")
    /\ (lacks spec "sklearn_version" \/ has spec "sklearn_version" JNull \/ exists s, has spec "sklearn_version" (JStr s))
    /\ has params "coefficients" (JArr coefs) /\ coefs <> [] /\ Forall2 number coefs cs
    /\ ((lacks params "intercept" /\ b = n0) \/ exists v, has params "intercept" v /\ number v b)
    /\ has params "n_features" (JNum x (Some (Z.of_nat (List.length coefs)))).

(** No object of the document repeats a name. *)
Definition clean (j : json N) : Prop :=
  match j with
  | JObj ms => distinct ms /\ forall k v, In (k, v) ms -> match v with JObj ms' => distinct ms' | _ => True end
  | _ => True
  end.
End Spec.
