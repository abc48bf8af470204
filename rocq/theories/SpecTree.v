(** * Specification of deserialization on XML trees.

    What a derived deserializer should compute, said on document trees and
    without any reader, peeking, depth counter or loop.  Used by C10-C16, C19,
    C27 and others.  Only the type definitions (Schema.v), the text forms of
    simple values ([visit_simple], [parse_simple], characterised by C07-C09)
    and the result type [outcome] are shared with the model. *)
From Verif Require Import Str Num Xml Reader Schema.

(** ** Document trees *)
Inductive node :=
| Elem (n : name) (attrs : list attr) (ns : nsmap) (kids : list node)
| Txt (s : string).

(** The events of a tree. *)
Fixpoint flat (t : node) : list event :=
  match t with
  | Txt s => [EChars s]
  | Elem n a m ks => EStart n a m :: flat_map flat ks ++ [EEnd n]
  end.

(** ** Results: value, error or panic *)
Definition obind {A B} (o : outcome A) (k : A -> outcome B) : outcome B :=
  match o with
  | OOk a => k a
  | OErr m => OErr m
  | OPanic m => OPanic m
  | OFuel => OFuel
  end.
Definition ores {A} (r : res A) : outcome A :=
  match r with Ok a => OOk a | Er m => OErr m end.

(** In order, stopping at the first failure; results concatenated. *)
Definition ocollect {A B} (f : A -> outcome (list B)) : list A -> outcome (list B) :=
  fix go (l : list A) :=
    match l with
    | [] => OOk []
    | a :: r => obind (f a) (fun u => obind (go r) (fun w => OOk (u ++ w)))
    end.

(** ** Fields *)

(** Base type of a field type. *)
Definition base_of (t : fty) : base :=
  match t with TBase b | TOpt b | TVec b | TOptVec b => b end.

(** Namespace bound to a prefix by the type's [namespaces]; "" without prefix. *)
Definition uri_of (nss : nsmap) (p : option string) : string :=
  match p with
  | None => ""
  | Some p => match ns_get nss p with Some u => u | None => "" end
  end.

(** Namespace and local name of an element, and those a field stands for. *)
Definition elabel (n : name) : string * string :=
  (match n_ns n with Some u => u | None => "" end, n_local n).
Definition flabel (ra : yattr) (f : field) : string * string :=
  (uri_of (ya_namespaces ra) (ya_prefix (f_attrs f)),
   match ya_rename (f_attrs f) with Some r => r | None => f_label f end).
Definition label_eqb (a b : string * string) : bool :=
  (String.eqb (fst a) (fst b) && String.eqb (snd a) (snd b))%bool.

Definition numbered {A} (l : list A) : list (nat * A) := combine (seq 0 (List.length l)) l.

(** The field a child element belongs to: the first element field with the
    element's label. *)
Definition field_for (ra : yattr) (fs : list field) (n : name) : option (nat * field) :=
  find (fun p => let f := snd p in
          (negb (ya_attribute (f_attrs f)) && negb (ya_flatten (f_attrs f))
           && label_eqb (flabel ra f) (elabel n))%bool)
       (numbered fs).

(** The fields receiving the text of the element. *)
Definition text_fields (fs : list field) : list nat :=
  map fst (filter (fun p => let f := snd p in
     (ya_text (f_attrs f) &&
      match f_ty f with TBase (BSimple SString) | TOpt (BSimple SString) => true | _ => false end)%bool)
     (numbered fs)).

(** ** From contributions to the value

    The document contributes values to fields: pairs (field number, value)
    in document order.  A Vec field takes all its contributions, any other
    field the last one. *)
Definition given (i : nat) (c : list (nat * value)) : list value :=
  map snd (filter (fun p => Nat.eqb (fst p) i) c).

Fixpoint last_of (l : list value) : option value :=
  match l with [] => None | [v] => Some v | _ :: r => last_of r end.

Definition field_result (x : ext) (tn : string) (f : field) (l : list value) : res value :=
  match f_ty f with
  | TVec _ => Ok (VVec l)
  | TOpt _ | TOptVec _ => Ok (VOpt (last_of l))
  | TBase _ =>
      match last_of l with
      | Some v => Ok v
      | None =>
          match ya_default (f_attrs f) with
          | Some d => Ok (x_default x d)
          | None => Er (f_label f +++ " is a required field of " +++ tn)
          end
      end
  end.

Fixpoint fields_result (x : ext) (tn : string) (i : nat) (fs : list field)
    (c : list (nat * value)) : res (list value) :=
  match fs with
  | [] => Ok []
  | f :: r =>
      match field_result x tn f (given i c), fields_result x tn (S i) r c with
      | Er m, _ => Er m
      | Ok _, Er m => Er m
      | Ok v, Ok vs => Ok (v :: vs)
      end
  end.

(** ** Namespace of a checked element *)
Definition bad_namespace (ra : yattr) (n : name) : option string :=
  match n_ns n with
  | None => None
  | Some u =>
      match ya_prefix ra with
      | Some p => match ns_get (ya_namespaces ra) p with
                  | Some v => if String.eqb v u then None
                              else Some ("bad namespace for " +++ n_local n +++ ", found " +++ u)
                  | None => Some ("bad namespace for " +++ n_local n +++ ", found " +++ u)
                  end
      | None => Some ("bad namespace for " +++ n_local n +++ ", found " +++ u)
      end
  end.

(** ** Variants *)
Definition variant_name (v : variant) : string :=
  match ya_rename (v_attrs v) with Some r => r | None => v_label v end.

(** Only unit and one-payload variants can be read. *)
Definition variant_for (vs : list variant) (s : string) : option (nat * vbody) :=
  match find (fun p => match v_body (snd p) with
                       | VbNamed _ => false
                       | _ => String.eqb (variant_name (snd p)) s
                       end) (numbered vs) with
  | Some (i, v) => Some (i, v_body v)
  | None => None
  end.

(** Storing one payload value. *)
Definition store (t : fty) (i : nat) (w : value) (cur : option value) : outcome (option value) :=
  match t with
  | TBase _ => OOk (Some (VVar i [w]))
  | TOpt _ | TOptVec _ => OOk (Some (VVar i [VOpt (Some w)]))
  | TVec _ =>
      match cur with
      | None => OOk (Some (VVar i [VVec [w]]))
      | Some (VVar j [VVec l]) =>
          if Nat.eqb i j then OOk (Some (VVar i [VVec (l ++ [w])]))
          else OErr "Got sequence of different types"
      | Some _ => OErr "Got sequence of different types"
      end
  end.

Section Decode.
  Variable x : ext.
  Variable E : env.
  (** Value of an attribute whose type is a user type. *)
  Variable attr_value : nat -> string -> outcome value.
  (** Value of a flattened field of type [id] read from the rest of the
      struct's element. *)
  Variable flat_value : nat -> node -> outcome value.

  (** ** Attributes *)
  Definition attr_item (b : base) (s : string) : outcome value :=
    match b with
    | BSimple t => ores (visit_simple x t s)
    | BUser id => attr_value id s
    end.

  (** Contributions of attribute [a] to attribute field [f]. *)
  Definition attr_given (i : nat) (f : field) (a : attr) : outcome (list (nat * value)) :=
    if String.eqb (n_local (at_name a)) (snd (flabel ya0 f)) then
      match f_ty f with
      | TVec b => ocollect (fun s => obind (attr_item b s) (fun v => OOk [(i, v)]))
                           (split_ws (at_value a))
      | t => obind (attr_item (base_of t) (at_value a)) (fun v => OOk [(i, v)])
      end
    else OOk [].

  Definition attrs_given (fs : list field) (attrs : list attr) : outcome (list (nat * value)) :=
    ocollect (fun p => if ya_attribute (f_attrs (snd p))
                       then ocollect (attr_given (fst p) (snd p)) attrs else OOk [])
             (numbered fs).

  (** ** Children of a struct element *)
  Definition simple_given (i : nat) (s : simple) (kids : list node) : list (nat * value) :=
    match kids with
    | [Txt t] => match visit_simple x s t with Ok v => [(i, v)] | Er _ => [] end
    | _ => []
    end.

  Definition kid_given (sub : nat -> node -> outcome value) (ra : yattr) (fs : list field)
      (k : node) : outcome (list (nat * value)) :=
    match k with
    | Txt t => OOk (map (fun i => (i, VStr t)) (text_fields fs))
    | Elem n _ _ kids =>
        match field_for ra fs n with
        | None => OOk []
        | Some (i, f) =>
            match base_of (f_ty f) with
            | BUser id => obind (sub id k) (fun v => OOk [(i, v)])
            | BSimple s => OOk (simple_given i s kids)
            end
        end
    end.

  (** ** Flattened fields: read from the element without the children that
      belong to fields. *)
  Definition is_left (ra : yattr) (fs : list field) (k : node) : bool :=
    match k with
    | Txt _ => true
    | Elem n _ _ _ => match field_for ra fs n with None => true | Some _ => false end
    end.

  Definition flat_given (rest : node) (p : nat * field) : outcome (list (nat * value)) :=
    let '(i, f) := p in
    if (negb (ya_attribute (f_attrs f)) && ya_flatten (f_attrs f))%bool then
      match f_ty f with
      | TBase (BUser id) => obind (flat_value id rest) (fun v => OOk [(i, v)])
      | TOpt (BUser id) =>
          match flat_value id rest with
          | OErr _ => OOk []
          | o => obind o (fun v => OOk [(i, v)])
          end
      | _ => OPanic "flatten is not implemented"
      end
    else OOk [].

  (** ** Payload elements of an enum element *)
  Definition payload_given (sub : nat -> node -> outcome value) (vs : list variant)
      (cur : option value) (k : node) : outcome (option value) :=
    match k with
    | Txt _ => OOk cur
    | Elem n _ _ kids =>
        match variant_for vs (n_local n) with
        | Some (i, VbNew _ t) =>
            match base_of t with
            | BSimple s =>
                match parse_simple x s (match kids with [Txt u] => u | _ => "" end) with
                | Ok w => store t i w cur
                | Er m => OPanic ("called `Result::unwrap()` on an `Err` value: " +++ m)
                end
            | BUser id => obind (sub id k) (fun w => store t i w cur)
            end
        | _ => OOk cur
        end
    end.

  Definition ofold {A B} (f : B -> A -> outcome B) : list A -> B -> outcome B :=
    fix go (l : list A) (b : B) :=
      match l with
      | [] => OOk b
      | a :: r => obind (f b a) (fun b' => go r b')
      end.

  (** Unit variant named by a text. *)
  Definition text_variant (vs : list variant) (dflt : value) (t : string) : value :=
    match variant_for vs t with
    | Some (i, VbUnit) => VVar i []
    | _ => dflt
    end.

  Definition or_default (dflt : value) (o : option value) : value :=
    match o with Some v => v | None => dflt end.

  (** ** The value of an element read as type [id]

      [top]: the element is the document's root (its namespace is checked). *)
  Fixpoint decode (top : bool) (id : nat) (t : node) {struct t} : outcome value :=
    match t, nth_error E id with
    | Elem n attrs m kids, Some td =>
        let ra := t_attrs td in
        match t_body td with
        | DStruct fs =>
            match (if top then bad_namespace ra n else None) with
            | Some m => OErr m
            | None =>
                obind (attrs_given fs attrs) (fun ca =>
                obind (ocollect (kid_given (decode false) ra fs) kids) (fun ck =>
                obind (ocollect (flat_given (Elem n attrs m (filter (is_left ra fs) kids)))
                                (numbered fs)) (fun cf =>
                obind (ores (fields_result x (t_name td) 0 fs (ca ++ ck ++ cf))) (fun vs =>
                OOk (VRec vs)))))
            end
        | DEnum vs dflt =>
            match bad_namespace ra n with
            | Some m => OErr m
            | None =>
                match ya_tag ra with
                | Some tg =>
                    match find (fun a => String.eqb (n_local (at_name a)) tg) attrs with
                    | None => OErr ("Expected enum tagged with " +++ tg)
                    | Some a => OOk (text_variant vs dflt (at_value a))
                    end
                | None =>
                    match kids with
                    | [Txt s] => OOk (text_variant vs dflt s)
                    | _ => obind (ofold (payload_given (decode false) vs) kids None)
                                 (fun o => OOk (or_default dflt o))
                    end
                end
            end
        | DPrim k =>
            ores (parse_prim x (t_name td) k (match kids with [Txt s] => s | _ => "" end))
        end
    | _, _ => OPanic "not an element, or unknown type"
    end.
End Decode.

(** ** Conforming documents

    [Fits E id t]: the tree is one the deserializer of type [id] is meant for.
    - a struct element is named like the type, or unlike all of its fields;
    - an element of a simple field holds nothing or one text;
    - elements of user-typed fields conform to their type;
    - other elements are arbitrary;
    - an enum element holds one text, or payload elements (unit variants do
      not appear as elements) and things that name no variant;
    - the element of a tagged enum is empty;
    - with flattened fields, the children do not disturb the collection of the
      rest ([Tidy]). *)
Inductive alien (vs : list variant) : node -> Prop :=
| alien_txt : forall s, variant_for vs s = None -> alien vs (Txt s)
| alien_elem : forall n a m ks, variant_for vs (n_local n) = None ->
    (forall k, In k ks -> alien vs k) -> alien vs (Elem n a m ks).

Definition root_label (td : typedef) : string * string :=
  (uri_of (ya_namespaces (t_attrs td)) (ya_prefix (t_attrs td)),
   match ya_rename (t_attrs td) with Some r => r | None => t_name td end).

Definition user_payload (b : option (nat * vbody)) : Prop :=
  exists i fl t id, b = Some (i, VbNew fl t) /\ base_of t = BUser id.

Definition flat_field (f : field) : bool :=
  (negb (ya_attribute (f_attrs f)) && ya_flatten (f_attrs f))%bool.
Definition flattens (fs : list field) : bool := existsb flat_field fs.

Section Conform.
  Variable x : ext.
  Variable E : env.
  (** Which attribute values of user type are covered. *)
  Variable attr_fine : nat -> string -> Prop.
  (** Which trees can be handed to a flattened field. *)
  Variable flat_fine : nat -> node -> Prop.

  Definition attrs_fine (fs : list field) (attrs : list attr) : Prop :=
    forall f a id, In f fs -> In a attrs -> ya_attribute (f_attrs f) = true ->
      n_local (at_name a) = snd (flabel ya0 f) -> base_of (f_ty f) = BUser id ->
      match f_ty f with
      | TVec _ => forall s, In s (split_ws (at_value a)) -> attr_fine id s
      | _ => attr_fine id (at_value a)
      end.

  (** Children that do not disturb the collection of unused content: simple
      fields with a valid text, user-typed fields of struct type, other
      user-typed fields unless their deserializer stops before the end of the
      element (unit variants, texts of newtypes). *)
  Definition Tidy (ra : yattr) (fs : list field) (k : node) : Prop :=
    match k with
    | Txt _ => True
    | Elem n attrs _ kids =>
        forall i f, field_for ra fs n = Some (i, f) ->
        match base_of (f_ty f) with
        | BSimple s => exists t v, kids = [Txt t] /\ visit_simple x s t = Ok v
        | BUser id => exists td, nth_error E id = Some td /\
            match t_body td, ya_tag (t_attrs td) with
            | DStruct _, _ => True
            | DEnum vs _, None => forall s j, kids = [Txt s] -> variant_for vs s <> Some (j, VbUnit)
            | DEnum vs _, Some tg => forall a j, In a attrs -> n_local (at_name a) = tg ->
                variant_for vs (at_value a) <> Some (j, VbUnit)
            | DPrim _, _ => forall s, kids <> [Txt s]
            end
        end
    end.

  Inductive Fits : nat -> node -> Prop :=
  | fits_struct : forall id td fs n attrs m kids,
      nth_error E id = Some td -> t_body td = DStruct fs ->
      (elabel n = root_label td \/ field_for (t_attrs td) fs n = None) ->
      attrs_fine fs attrs ->
      (forall k, In k kids -> KidFits (t_attrs td) fs k) ->
      (flattens fs = true ->
         (forall f, In f fs -> flat_field f = true ->
            exists id', (f_ty f = TBase (BUser id') \/ f_ty f = TOpt (BUser id')) /\
              flat_fine id' (Elem n attrs m (filter (is_left (t_attrs td) fs) kids))) /\
         (forall k, In k kids -> Tidy (t_attrs td) fs k)) ->
      Fits id (Elem n attrs m kids)
  | fits_unit : forall id td vs dflt n attrs m s,
      nth_error E id = Some td -> t_body td = DEnum vs dflt -> ya_tag (t_attrs td) = None ->
      variant_for vs (n_local n) = None ->
      ~ user_payload (variant_for vs s) ->
      Fits id (Elem n attrs m [Txt s])
  | fits_payload : forall id td vs dflt n attrs m kids,
      nth_error E id = Some td -> t_body td = DEnum vs dflt -> ya_tag (t_attrs td) = None ->
      variant_for vs (n_local n) = None ->
      (forall s, kids <> [Txt s]) ->
      (forall k, In k kids -> PayloadFits vs k) ->
      Fits id (Elem n attrs m kids)
  | fits_tagged : forall id td vs dflt tg n attrs m,
      nth_error E id = Some td -> t_body td = DEnum vs dflt -> ya_tag (t_attrs td) = Some tg ->
      (forall a b, In a attrs -> n_local (at_name a) = tg ->
         variant_for vs (at_value a) = b -> b = None \/ exists i, b = Some (i, VbUnit)) ->
      Fits id (Elem n attrs m [])
  | fits_prim : forall id td k n attrs m kids,
      nth_error E id = Some td -> t_body td = DPrim k ->
      (kids = [] \/ exists s, kids = [Txt s]) ->
      Fits id (Elem n attrs m kids)
  with KidFits : yattr -> list field -> node -> Prop :=
  | kid_txt : forall ra fs s, s <> "" -> KidFits ra fs (Txt s)
  | kid_simple : forall ra fs n attrs m kids i f s,
      field_for ra fs n = Some (i, f) -> base_of (f_ty f) = BSimple s -> n_ns n <> Some "" ->
      (kids = [] \/ exists t, kids = [Txt t]) ->
      KidFits ra fs (Elem n attrs m kids)
  | kid_user : forall ra fs n attrs m kids i f id,
      field_for ra fs n = Some (i, f) -> base_of (f_ty f) = BUser id ->
      Fits id (Elem n attrs m kids) ->
      KidFits ra fs (Elem n attrs m kids)
  | kid_other : forall ra fs n attrs m kids,
      field_for ra fs n = None ->
      KidFits ra fs (Elem n attrs m kids)
  with PayloadFits : list variant -> node -> Prop :=
  | payload_simple : forall vs n attrs m kids i fl t s,
      variant_for vs (n_local n) = Some (i, VbNew fl t) -> base_of t = BSimple s ->
      (kids = [] \/ exists u, kids = [Txt u]) ->
      PayloadFits vs (Elem n attrs m kids)
  | payload_user : forall vs n attrs m kids i fl t id,
      variant_for vs (n_local n) = Some (i, VbNew fl t) -> base_of t = BUser id ->
      Fits id (Elem n attrs m kids) ->
      PayloadFits vs (Elem n attrs m kids)
  | payload_other : forall vs k, alien vs k -> PayloadFits vs k.
End Conform.
