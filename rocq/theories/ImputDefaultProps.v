(** * The default imputator (C53) *)

From Coq Require Import String.
From Coq Require Import List Bool Arith ZArith QArith Lia.
From Verif Require Import Py Dict ListX DataModel DataSpec ImputModel ImputProps WholeModel.
Import ListNotations.
Open Scope string_scope.
Open Scope list_scope.
Open Scope nat_scope.

(** The imputator of the default pipeline repeats known values: two moments are close if they differ by two
    minutes (times in microseconds), entries before the first known one get its value, the others the value of the
    last known one. *)
Theorem default_imputation : forall d n col,
  well_formed d n -> get_col d "datetime" = Ok col ->
  (forall v, In (Some v) col -> exists t, v = VDatetime t) -> (exists v, In (Some v) col) ->
  let two_minutes := 120000000%Z in
  exists d' ts rows1 T F G keep,
    default_impute d = Ok d' /\
    (chronological (stamps col) -> times_filled two_minutes (stamps col) ts) /\
    exactly rows1 n (fun i => nth i ts None <> None) /\
    length T = length rows1 /\
    (forall p i, nth_error rows1 p = Some i -> nth i ts None = Some (nth p T 0%Z)) /\
    (forall k, In k (data_keys d') <-> exists c v, get_col d k = Ok c /\ In (Some v) c) /\
    (forall k c p, k <> "datetime" -> In k (data_keys d') -> get_col d k = Ok c -> p < length rows1 ->
       filled_entry (fun _ right _ => Some right) (fun _ left _ _ => Some left) (fun _ left _ => Some left) two_minutes k T
         (map (fun i => nth i c None) rows1) p (F k p) (G k p)) /\
    exactly keep (length rows1) (fun p => forall k, In k (data_keys d') -> k <> "datetime" -> F k p <> None) /\
    (forall k, In k (data_keys d') -> k <> "datetime" -> get_col d' k = Ok (map (F k) keep)) /\
    get_col d' "datetime" = Ok (map (fun p => Some (VDatetime (nth p T 0%Z))) keep) /\
    tabular d' (length keep).
Proof.
  intros d n col W C V E two_minutes.
  destruct (fill_local_result default_fill_before default_fill_between default_fill_after default_max_diff d n col W ltac:(reflexivity) C V E)
    as [d' [st [ts [rows1 [T [F [G [keep [R [A1 [A2 [A3 [A4 [A5 [A6 [A7 [A8 [A9 [A10 _]]]]]]]]]]]]]]]]]]].
  exists d', ts, rows1, T, F, G, keep. split; [unfold default_impute; rewrite R; reflexivity|].
  change two_minutes with default_max_diff. auto 20.
Qed.
Print Assumptions default_imputation.

(** Entries less than two minutes apart are filled, entries further apart are removed. *)
Definition gap (seconds : Z) : Data :=
  mkData [("datetime", [Some (VDatetime 0); Some (VDatetime (1000000 * seconds)); Some (VDatetime (1000000 * seconds + 600000000))]);
          ("BSP", [Some (VFloat 6); None; Some (VFloat 7)])]
         [("datetime", Some TDatetime); ("BSP", Some TFloat)] 3.
Example default_gap :
  (exists d', default_impute (gap 119) = Ok d' /\ get_col d' "BSP" = Ok [Some (VFloat 6); Some (VFloat 6); Some (VFloat 7)]) /\
  (exists d', default_impute (gap 120) = Ok d' /\ get_col d' "BSP" = Ok [Some (VFloat 6); Some (VFloat 7)]).
Proof. split; eexists; (split; [vm_compute; reflexivity|reflexivity]). Qed.
