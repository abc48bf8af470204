(** * What a parser should tell about elements: vocabulary (C76). *)
From Verif Require Import Str Xml XmlText SpecXml.
Open Scope list_scope.

(** What the bindings that come with a start tag say about a prefix; "xml" is
    always bound. *)
Definition binds (m : nsmap) (p u : string) : Prop :=
  if String.eqb p "xml" then u = xml_namespace else ns_get m p = Some u.

(** Element names: with a prefix, in the namespace of the prefix; without, in
    the default namespace (the empty URI is none). *)
Definition elem_resolved (m : nsmap) (n : name) : Prop :=
  match n_prefix n, n_ns n with
  | Some p, Some u => binds m p u
  | Some _, None => False
  | None, Some u => ns_get m "" = Some u /\ u <> ""
  | None, None => ns_get m "" = None \/ ns_get m "" = Some ""
  end.
(** Attributes without prefix are in no namespace. *)
Definition attr_resolved (m : nsmap) (n : name) : Prop :=
  match n_prefix n, n_ns n with
  | Some p, Some u => binds m p u
  | Some _, None => False
  | None, o => o = None
  end.

Definition coherent_tag (n : name) (a : list attr) (m : nsmap) : Prop :=
  elem_resolved m n /\ (forall b, In b a -> attr_resolved m (at_name b)) /\
  NoDup (map (fun b => (n_prefix (at_name b), n_local (at_name b))) a).

(** Bindings are inherited: what is bound in an element is bound in the
    elements inside of it, perhaps to something else. *)
Definition inherits (outer : list (name * nsmap)) (m : nsmap) : Prop :=
  match outer with
  | [] => True
  | (_, m0) :: _ => forall p, ns_get m0 p <> None -> ns_get m p <> None
  end.

(** [coherent st l st']: the events [l] inside of the open elements [st] leave
    the elements [st'] open. *)
Inductive coherent : list (name * nsmap) -> list event -> list (name * nsmap) -> Prop :=
| coh_end : forall st, coherent st [] st
| coh_open : forall st n a m l st', coherent_tag n a m -> inherits st m -> coherent ((n, m) :: st) l st' ->
    coherent st (EStart n a m :: l) st'
| coh_close : forall st n m l st', coherent st l st' -> coherent ((n, m) :: st) (EEnd n :: l) st'
| coh_text : forall e x st l st', match e with EChars _ | ECData _ | EWhitespace _ => True | _ => False end ->
    coherent (x :: st) l st' -> coherent (x :: st) (e :: l) st'
| coh_other : forall e st l st', match e with EStartDoc | EPI _ | EComment _ => True | _ => False end ->
    coherent st l st' -> coherent st (e :: l) st'.
