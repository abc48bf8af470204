(** * Vocabulary of C68: what an option says. *)
From Verif Require Import Str Num Xml XmlText Reader Schema Macro Options.
Open Scope list_scope.

(** The last entry for a key counts. *)
Definition entry (l : list (string * string)) (p u : string) : Prop :=
  exists before after, l = before ++ (p, u) :: after /\ ~ In p (map fst after).
(** Increasing keys. *)
Fixpoint increasing (m : list (string * string)) : Prop :=
  match m with
  | [] => True
  | (p, _) :: r => (forall q v, In (q, v) r -> String.compare p q = Lt) /\ increasing r
  end.

(** The option [k] with the value [v] is in force. *)
Inductive says : string -> otok -> yattr -> Prop :=
| S_attribute v y : as_bool v = Ok (ya_attribute y) -> says "attribute" v y
| S_default v y s : as_str v = Ok s -> ya_default y = Some s -> says "default" v y
| S_default_namespace v y s : as_str v = Ok s -> ya_default_namespace y = Some s -> says "default_namespace" v y
| S_flatten v y : as_bool v = Ok (ya_flatten y) -> says "flatten" v y
| S_namespaces v y l : as_map v = Ok l -> increasing (ya_namespaces y) ->
    (forall p u, In (p, u) (ya_namespaces y) <-> entry l p u) -> says "namespaces" v y
| S_prefix v y s : as_str v = Ok s -> ya_prefix y = Some s -> says "prefix" v y
| S_rename v y s : as_str v = Ok s -> ya_rename y = Some s -> says "rename" v y
| S_tag v y s : as_str v = Ok s -> ya_tag y = Some s -> says "tag" v y
| S_skip v y : as_bool v = Ok (ya_skip y) -> says "skip_serializing" v y
| S_skip_if v y s : as_str v = Ok s -> ya_skip_if y = Some s -> says "skip_serializing_if" v y
| S_text v y : as_bool v = Ok (ya_text y) -> says "text" v y
| S_cdata v y : as_bool v = Ok (ya_cdata y) -> says "cdata" v y.

(** The names of options, and what holds when one is not written. *)
Definition silent : list (string * (yattr -> Prop)) :=
  [("attribute", fun y => ya_attribute y = false); ("default", fun y => ya_default y = None);
   ("default_namespace", fun y => ya_default_namespace y = None); ("flatten", fun y => ya_flatten y = false);
   ("namespaces", fun y => ya_namespaces y = []); ("prefix", fun y => ya_prefix y = None);
   ("rename", fun y => ya_rename y = None); ("tag", fun y => ya_tag y = None);
   ("skip_serializing", fun y => ya_skip y = false); ("skip_serializing_if", fun y => ya_skip_if y = None);
   ("text", fun y => ya_text y = false); ("cdata", fun y => ya_cdata y = false)]%string.
Definition option_name (k : string) : Prop := In k (map fst silent).

(** No option is written twice. *)
Definition once (l : list (string * otok)) : Prop :=
  forall k before v middle v' after,
    option_name k -> l = before ++ (k, v) :: middle ++ (k, v') :: after -> False.

(** The options [l] taken as they are written. *)
Definition as_written (l : list (string * otok)) (y : yattr) : Prop :=
  once l /\
  (forall k v, In (k, v) l -> option_name k -> says k v y) /\
  (forall k v, In (k, v) l -> ~ option_name k -> as_any v = Ok tt) /\
  (forall k D, In (k, D) silent -> ~ In k (map fst l) -> D y).
