(** * Vocabulary for hand-written implementations (C70).

    [YaDeserialize] and [YaSerialize] (yaserde/src/lib.rs:101-125) can be
    implemented by hand; derived code then calls what was written by hand. *)
From Verif Require Import Str Num Xml XmlText Reader Schema De Ser SpecTree SpecText SpecEnc.
Open Scope list_scope.

(** The [deserialize] of type [id] when those of some types are written by
    hand ([own]: any client programs of the [Deserializer]). *)
Fixpoint de_with (x : ext) (E : env) (own : nat -> option (prog value)) (fuel : nat) (id : nat) : prog value :=
  match own id with
  | Some p => p
  | None =>
      match fuel with
      | O => Stuck
      | S f => de_body x E (de_with x E own f) f id
      end
  end.

(** ** Elements read by a program *)

(** The reader is at depth [d], the events it will deliver are [l] and then
    [f]. *)
Definition delivered (e : event) : bool := match e with EStartDoc | EPI _ | EComment _ => false | _ => true end.
Definition stands (st : dstate) (d : nat) (l : list event) (f : fin) : Prop :=
  d_depth st = d /\ s_fin (d_src st) = f /\
  (match d_peeked st with Some e => [e] | None => [] end) ++ filter delivered (s_evs (d_src st)) = l.

(** Where a deserializer may leave its element: before the end tag or, if it
    need not have read the whole of it, before a last text or at the start tag
    when there is nothing inside. *)
Inductive stops (d : nat) (n : name) (a : list attr) (m : nsmap) : bool -> nat -> list event -> Prop :=
| stops_end : forall whole, stops d n a m whole (S d) [EEnd n]
| stops_text : forall s, stops d n a m false (S d) [EChars s; EEnd n]
| stops_start : stops d n a m false d [EStart n a m; EEnd n].

(** Called at the start tag of the element [t], at depth [d], the program ends
    with [o], whatever follows the element; if that is a value, it stops inside
    of the element. *)
Definition ReadBy (whole : bool) (d : nat) (p : prog value) (t : node) (o : outcome value) : Prop :=
  exists n a m ks, t = Elem n a m ks /\
  forall st tail f, stands st d (flat t ++ tail) f ->
  match o with
  | OOk v => exists st' d' l, run p st = (OOk v, st') /\ stops d n a m whole d' l /\ stands st' d' (l ++ tail) f
  | r => fst (run p st) = r
  end.

(** ** What elements mean

    [rec]: the implementations of the other types, [sub]: what they make of
    elements. *)

(** Attributes and flattened fields of user type: what the implementation
    reads from a document of its own, "<T>..</T>" around the attribute value,
    the element without the children of other fields. *)
Definition attr_reads (E : env) (rec : nat -> prog value) (id : nat) (s : string) : outcome value :=
  match nth_error E id with
  | Some td => fst (run (rec id) (d_init (parse_text ("<" +++ t_name td +++ ">" +++ s +++ "</" +++ t_name td +++ ">"))))
  | None => OPanic "unknown type"
  end.
Definition events_written (l : list event) : list wevent :=
  flat_map (fun e => match e with
                     | EStart n a m => [WStart n a m]
                     | EEnd n => [WEnd (Some n)]
                     | EChars s => [WChars s]
                     | _ => []
                     end) l.
Definition flat_reads (rec : nat -> prog value) (id : nat) (r : node) : outcome value :=
  fst (run (rec id) (d_init (parse_text (emit_text default_econf (events_written (flat r)))))).

Definition struct_means (x : ext) (E : env) (rec : nat -> prog value) (sub : nat -> node -> outcome value)
    (td : typedef) (fs : list field) (top : bool) (n : name) (a : list attr) (m : nsmap) (kids : list node) : outcome value :=
  match (if top then bad_namespace (t_attrs td) n else None) with
  | Some e => OErr e
  | None =>
      obind (attrs_given x (attr_reads E rec) fs a) (fun ca =>
      obind (ocollect (kid_given x sub (t_attrs td) fs) kids) (fun ck =>
      obind (ocollect (flat_given (flat_reads rec) (Elem n a m (filter (is_left (t_attrs td) fs) kids))) (numbered fs)) (fun cf =>
      obind (ores (fields_result x (t_name td) 0 fs (ca ++ ck ++ cf))) (fun vs => OOk (VRec vs)))))
  end.

(** Payloads of an enum without tag. *)
Definition enum_means (x : ext) (sub : nat -> node -> outcome value) (td : typedef) (vs : list variant) (dflt : value)
    (n : name) (kids : list node) : outcome value :=
  match bad_namespace (t_attrs td) n with
  | Some e => OErr e
  | None => obind (ofold (payload_given x sub vs) kids None) (fun o => OOk (or_default dflt o))
  end.

(** The variant with the given name. *)
Definition named_means (td : typedef) (vs : list variant) (dflt : value) (n : name) (s : string) : outcome value :=
  match bad_namespace (t_attrs td) n with Some e => OErr e | None => OOk (text_variant vs dflt s) end.

(** ** Readable children

    Of a struct element: texts, elements of simple fields with at most a text
    (with a readable one, if there are flattened fields), elements of other
    fields that the implementations of their types can read, anything else. *)
Definition kid_read (x : ext) (rec : nat -> prog value) (sub : nat -> node -> outcome value) (ra : yattr) (fs : list field)
    (k : node) : Prop :=
  match k with
  | Txt s => s <> ""
  | Elem n a m ks =>
      match field_for ra fs n with
      | None => True
      | Some (_, f) =>
          match base_of (f_ty f) with
          | BSimple s => n_ns n <> Some "" /\
              ((exists t v, ks = [Txt t] /\ visit_simple x s t = Ok v) \/
               (flattens fs = false /\ (ks = [] \/ exists t, ks = [Txt t])))
          | BUser id => forall d, ReadBy (flattens fs) (S d) (rec id) k (sub id k)
          end
      end
  end.

(** Of an enum element: simple payloads with at most a text, other payloads
    that the implementations of their types can read, things naming no
    variant. *)
Definition payload_read (rec : nat -> prog value) (sub : nat -> node -> outcome value) (vs : list variant) (k : node) : Prop :=
  match k with
  | Txt s => variant_for vs s = None
  | Elem n a m ks =>
      match variant_for vs (n_local n) with
      | None => alien vs k
      | Some (_, VbNew _ t) =>
          match base_of t with
          | BSimple _ => ks = [] \/ exists u, ks = [Txt u]
          | BUser id => forall d, ReadBy false (S d) (rec id) k (sub id k)
          end
      | Some _ => False
      end
  end.

(** ** Writing *)

(** The [serialize] and [serialize_attributes] of all types when those of some
    types are written by hand. *)
Definition own_writers := nat -> option ((value -> sm unit) * (value -> sres (list attr * nsmap))).
Fixpoint ser_with (x : ext) (E : env) (own : own_writers) (fuel : nat) : sfuns :=
  let derived : sfuns :=
    match fuel with
    | O => (fun _ _ => sstuck, fun _ _ => SStuck)
    | S f => let r := ser_with x E own f in
             (ser_body x E (fst r) (snd r), attrs_body x E (fst r) (snd r))
    end in
  (fun id v => match own id with Some (w, _) => w v | None => fst derived id v end,
   fun id v => match own id with Some (_, a) => a v | None => snd derived id v end).

(** What they are meant to write: trees, and start-tag data. *)
Definition own_trees := nat -> option ((value -> how -> option (list wnode)) * (value -> option (list attr * nsmap))).
Definition encs := ((nat -> value -> how -> option (list wnode)) * (nat -> value -> option (list attr * nsmap)))%type.
Fixpoint enc_with (x : ext) (E : env) (own : own_trees) (fuel : nat) : encs :=
  let derived : encs :=
    match fuel with
    | O => (fun _ _ _ => None, fun _ _ => None)
    | S f => let r := enc_with x E own f in
             (enc_type x E (fst r) (snd r), enc_type_attrs x E (fst r) (snd r))
    end in
  (fun id v h => match own id with Some (e, _) => e v h | None => fst derived id v h end,
   fun id v => match own id with Some (_, a) => a v | None => snd derived id v end).

(** The program makes the write calls of these trees, up to the first one that
    fails ([sched]: which calls fail), and fails if one does.  [None]: it never
    succeeds. *)
Definition asked (w : wstate) : how := if w_skip w then Inside else Under (w_name w).
Definition opens (st : list name) (e : wevent) : list name :=
  match e with WStart n _ _ => n :: st | WEnd _ => tl st | _ => st end.
Fixpoint calls_made (sched : nat -> bool) (n : nat) (l : list wevent) : list wevent * bool :=
  match l with
  | [] => ([], true)
  | e :: r => if sched n then ([], false)
              else let '(made, fine) := calls_made sched (S n) r in (e :: made, fine)
  end.
Definition Writes (sched : nat -> bool) (h : how) (p : sm unit) (o : option (list wnode)) : Prop :=
  forall w, asked w = h ->
  match o with
  | Some ts => let '(made, fine) := calls_made sched (w_calls w) (flat_map wtree ts) in
      exists r w', p sched w = (r, w') /\
      w_evs w' = w_evs w ++ made /\ w_stack w' = fold_left opens made (w_stack w) /\
      (if fine then r = SOk tt /\ w_calls w' = w_calls w + List.length made
       else (exists e, r = SErr e) /\ w_calls w' = S (w_calls w + List.length made))
  | None => fst (p sched w) <> SOk tt
  end.
Definition Gives {A} (r : sres A) (o : option A) : Prop :=
  match o with Some a => r = SOk a | None => forall a, r <> SOk a end.
Definition AllWrite (sched : nat -> bool) (own : own_writers) (trees : own_trees) : Prop :=
  forall id, match own id, trees id with
             | Some (w, a), Some (e, ea) => (forall v h, Writes sched h (w v) (e v h)) /\ (forall v, Gives (a v) (ea v))
             | None, None => True
             | _, _ => False
             end.
