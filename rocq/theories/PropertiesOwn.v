(** * C70: hand-written implementations inside of derived types.

    Vocabulary: SpecOwn.v ([de_with], [ser_with]: the program with some
    hand-written implementations; [ReadBy]: what a deserializer makes of an
    element and where it stops; [Writes]: what a serializer writes). *)
From Verif Require Import Str Num Xml XmlText Reader Schema De Ser SpecTree SpecText SpecEnc SpecSer SpecValue Conform SpecOwn OwnProofs OwnWrite OwnCases FuelProofs.
Open Scope list_scope.

(** ** Reading *)

(** A derived struct reads what the implementations of its fields' types read,
    each from its own element, and the rest as if they were derived; it meets
    the contract that they meet. *)
Theorem C70_struct_partial :
  forall x E own fuel id td fs n attrs m kids sub d whole,
  own id = None -> nth_error E id = Some td -> t_body td = DStruct fs ->
  (elabel n = root_label td \/ field_for (t_attrs td) fs n = None) ->
  (forall k, In k kids -> kid_read x (de_with x E own fuel) sub (t_attrs td) fs k) ->
  List.length (flat (Elem n attrs m kids)) < fuel ->
  ReadBy whole d (de_with x E own (S fuel) id) (Elem n attrs m kids)
    (struct_means x E (de_with x E own fuel) sub td fs (Nat.eqb d 0) n attrs m kids).
Proof. exact with_struct. Qed.
Print Assumptions C70_struct_partial.

(** So does a derived enum with its payloads. *)
Theorem C70_enum_partial :
  forall x E own fuel id td vs dflt n attrs m kids sub d whole,
  own id = None -> nth_error E id = Some td -> t_body td = DEnum vs dflt -> ya_tag (t_attrs td) = None ->
  variant_for vs (n_local n) = None -> (forall s, kids <> [Txt s]) ->
  (forall k, In k kids -> payload_read (de_with x E own fuel) sub vs k) ->
  List.length (flat (Elem n attrs m kids)) < fuel ->
  ReadBy whole d (de_with x E own (S fuel) id) (Elem n attrs m kids) (enum_means x sub td vs dflt n kids).
Proof. exact with_enum. Qed.
Print Assumptions C70_enum_partial.

(** Where no other implementation is called: unit variants named by the text or
    by the tag attribute, newtypes and the like. *)
Theorem C70_unit :
  forall x E own fuel id td vs dflt n attrs m s d,
  own id = None -> nth_error E id = Some td -> t_body td = DEnum vs dflt -> ya_tag (t_attrs td) = None ->
  variant_for vs (n_local n) = None -> ~ user_payload (variant_for vs s) -> 3 < fuel ->
  ReadBy false d (de_with x E own (S fuel) id) (Elem n attrs m [Txt s]) (named_means td vs dflt n s).
Proof. exact with_unit. Qed.
Print Assumptions C70_unit.

Theorem C70_tagged :
  forall x E own fuel id td vs dflt tg n attrs m d,
  own id = None -> nth_error E id = Some td -> t_body td = DEnum vs dflt -> ya_tag (t_attrs td) = Some tg ->
  (forall a b, In a attrs -> n_local (at_name a) = tg ->
     variant_for vs (at_value a) = b -> b = None \/ exists i, b = Some (i, VbUnit)) ->
  2 < fuel ->
  ReadBy false d (de_with x E own (S fuel) id) (Elem n attrs m [])
    (match find (fun a => String.eqb (n_local (at_name a)) tg) attrs with
     | Some a => named_means td vs dflt n (at_value a)
     | None => obind (named_means td vs dflt n "") (fun _ => OErr ("Expected enum tagged with " +++ tg))
     end).
Proof. exact with_tagged. Qed.
Print Assumptions C70_tagged.

Theorem C70_newtype :
  forall x E own fuel id td k n attrs m kids d,
  own id = None -> nth_error E id = Some td -> t_body td = DPrim k -> (kids = [] \/ exists s, kids = [Txt s]) ->
  ReadBy false d (de_with x E own (S fuel) id) (Elem n attrs m kids)
    (ores (parse_prim x (t_name td) k (match kids with [Txt s] => s | _ => "" end))).
Proof. exact with_prim. Qed.
Print Assumptions C70_newtype.

(** In full: a struct whose user-typed fields are read by their
    implementations, whatever else is in its element. *)
Definition C70_full : Prop :=
  forall x E own id td fs n attrs m kids sub d,
  own id = None -> nth_error E id = Some td -> t_body td = DStruct fs ->
  (forall k n' a' m' ks i f id', In k kids -> k = Elem n' a' m' ks -> field_for (t_attrs td) fs n' = Some (i, f) ->
     base_of (f_ty f) = BUser id' -> exists p, own id' = Some p /\ forall e, ReadBy true (S e) p k (sub id' k)) ->
  exists N, forall fuel, N <= fuel ->
    ReadBy false d (de_with x E own (S fuel) id) (Elem n attrs m kids)
      (struct_means x E (de_with x E own fuel) sub td fs (Nat.eqb d 0) n attrs m kids).
(** An element of a simple field that holds an element of the same name, as in
    C63. *)
Theorem C70_nested_refuted : ~ C70_full.
Proof.
  intros H. pose (E := [struct_ "a" ya0 [fld "b" tstr]]).
  destruct (H x0 E (fun _ => None) 0%nat (struct_ "a" ya0 [fld "b" tstr]) [fld "b" tstr] (qname "a") [] []
              [Elem (qname "b") [] [] [Elem (qname "b") [] [] [Txt "1"]]] (fun _ _ => OFuel) 0%nat eq_refl eq_refl eq_refl) as [N HN].
  - intros k n' a' m' ks i f id' [<-|[]] Hk Hf Hb. injection Hk as <- <- <- <-. vm_compute in Hf. injection Hf as <- <-. discriminate Hb.
  - specialize (HN (60 + N)%nat (Nat.le_add_l N 60)). destruct HN as (n & a & m & ks & Ht & HN).
    specialize (HN (d_init (Stream (flat (Elem n a m ks)) FEnd)) [] FEnd).
    injection Ht as <- <- <- <-. rewrite app_nil_r in HN.
    specialize (HN (conj eq_refl (conj eq_refl eq_refl))).
    change (struct_means _ _ _ _ _ _ _ _ _ _ _) with (@OErr value "b is a required field of a") in HN. cbv iota beta in HN.
    rewrite de_with_none in HN.
    assert (Hr : from_events x0 E 60 0 (Stream (flat (Elem (qname "a") [] [] [Elem (qname "b") [] [] [Elem (qname "b") [] [] [Txt "1"]]])) FEnd) = OOk (VRec [VStr "1"]))
      by (vm_compute; reflexivity).
    rewrite <- (fuel_more x0 E 0 _ 60 (S (60 + N))) in Hr; [|lia|rewrite Hr; discriminate].
    unfold from_events in Hr. rewrite HN in Hr. discriminate Hr.
Qed.
Print Assumptions C70_nested_refuted.

(** Types derived all the way down meet the contract. *)
Theorem C70_derived :
  forall x E k id t, Conforms x E k id t ->
  exists N, forall fuel d, N <= fuel -> ReadBy false d (De.de x E fuel id) t (value_of x E k (Nat.eqb d 0) id t).
Proof. exact derived_reads. Qed.
Print Assumptions C70_derived.

Theorem C70_all_derived :
  forall x E fuel, de_with x E (fun _ => None) fuel = De.de x E fuel.
Proof. exact de_with_none. Qed.
Print Assumptions C70_all_derived.

(** Whole documents. *)
Theorem C70_document :
  forall whole p t o s tail f, ReadBy whole 0 p t o ->
  parse_text s = Stream (EStartDoc :: flat t ++ tail) f ->
  fst (run p (d_init (parse_text s))) = o.
Proof. exact read_document. Qed.
Print Assumptions C70_document.

(** The contract on one of the implementations in the repo's tests. *)
Theorem C70_day :
  forall d n a m ks, (ks = [] \/ exists s, ks = [Txt s]) ->
  ReadBy false d day_reader (Elem n a m ks) (day_means (Elem n a m ks)).
Proof. exact day_read. Qed.
Print Assumptions C70_day.

(** deserializer.rs de_custom *)
Definition E70 : env :=
  [struct_ "Date" ya0 [fldA "year" (a_rename "Year" ya0) (tint I32); fldA "month" (a_rename "Month" ya0) (tint I32);
                       fldA "day" (a_rename "Day" ya0) (tuser 1)];
   struct_ "Day" ya0 [];
   struct_ "Struct" ya0 [fldA "attr_option_string" (a_attr ya0) (TOpt (BSimple SString));
                         fldA "attr_option_struct" (a_attr ya0) (TOpt (BUser 3))];
   struct_ "Attributes" ya0 [];
   enum_ "When" ya0 [vnew "Day" (TBase (BUser 1)); vnew "Year" (tint I32)] (VVar 1 [VInt 0])].
Definition own70 (id : nat) : option (prog value) :=
  match id with 1%nat => Some day_reader | 3%nat => Some (words_reader 5) | _ => None end.
Definition T70 : node :=
  Elem (qname "Date") [] []
    [Elem (qname "Year") [] [] [Txt "2020"]; Elem (qname "Day") [] [] [Txt "11"]; Elem (qname "Month") [] [] [Txt "01"]].

Example C70_case_custom :
  fst (run (de_with x0 E70 own70 20 0) (d_init (parse_text
    "<?xml version=""1.0"" encoding=""utf-8""?><Date><Year>2020</Year><Month>01</Month><Day>11</Day></Date>")))
  = OOk (VRec [VInt 2020; VInt 1; VRec [VInt 22]]).
Proof. vm_compute. reflexivity. Qed.

Example C70_case_struct : forall d,
  ReadBy true d (de_with x0 E70 own70 20 0) T70 (OOk (VRec [VInt 2020; VInt 1; VRec [VInt 22]])).
Proof.
  intros d.
  assert (H : OOk (VRec [VInt 2020; VInt 1; VRec [VInt 22]])
    = struct_means x0 E70 (de_with x0 E70 own70 19) (fun _ => day_means) (nth 0 E70 (struct_ "" ya0 []))
        [fldA "year" (a_rename "Year" ya0) (tint I32); fldA "month" (a_rename "Month" ya0) (tint I32);
         fldA "day" (a_rename "Day" ya0) (tuser 1)] (Nat.eqb d 0) (qname "Date") [] []
        [Elem (qname "Year") [] [] [Txt "2020"]; Elem (qname "Day") [] [] [Txt "11"]; Elem (qname "Month") [] [] [Txt "01"]]).
  { destruct d; vm_compute; reflexivity. }
  rewrite H. apply C70_struct_partial; try reflexivity.
  - left. reflexivity.
  - intros k [<-|[<-|[<-|[]]]]; cbn.
    + split; [discriminate|]. left. do 2 eexists. split; reflexivity.
    + intros e. apply C70_day. right. eauto.
    + split; [discriminate|]. left. do 2 eexists. split; reflexivity.
  - cbn. lia.
Qed.

(** An enum with a hand-written payload type. *)
Example C70_case_enum :
  fst (run (de_with x0 E70 own70 20 4) (d_init (parse_text "<When><Day>4</Day></When>"))) = OOk (VVar 0 [VRec [VInt 8]]).
Proof. vm_compute. reflexivity. Qed.

(** The other elements of a derived enum beside a hand-written one. *)
Example C70_case_unit :
  let E := [enum_ "When" ya0 [vunit "Never"; vnew "Day" (TBase (BUser 1))] (VVar 0 []); struct_ "Day" ya0 []] in
  named_means (nth 0 E (struct_ "" ya0 [])) [vunit "Never"; vnew "Day" (TBase (BUser 1))] (VVar 0 []) (qname "When") "Never" = OOk (VVar 0 []) /\
  fst (run (de_with x0 E own70 20 0) (d_init (parse_text "<When>Never</When>"))) = OOk (VVar 0 []) /\
  ~ user_payload (variant_for [vunit "Never"; vnew "Day" (TBase (BUser 1))] "Never").
Proof.
  split; [reflexivity|]. split; [vm_compute; reflexivity|]. intros (i & fl & t & id & H & _). vm_compute in H. discriminate H.
Qed.

Definition E70b : env :=
  [struct_ "Plan" ya0 [fldA "on" (a_rename "Day" ya0) (tuser 1); fld "kind" (tuser 2); fld "size" (tuser 3)]; struct_ "Day" ya0 [];
   enum_ "Kind" (a_tag "is" ya0) [vunit "Never"; vunit "Once"] (VVar 0 []); TypeDef "Size" ya0 (DPrim (PInner (SInt U8)))].
Definition own70b (id : nat) : option (prog value) := match id with 1%nat => Some day_reader | _ => None end.
Example C70_case_tagged :
  ReadBy false 3 (de_with x0 E70b own70b 4 2) (Elem (qname "kind") [Attr (qname "is") "Once"] [] []) (OOk (VVar 1 [])) /\
  ReadBy false 3 (de_with x0 E70b own70b 4 3) (Elem (qname "size") [] [] [Txt "7"]) (OOk (VInt 7)) /\
  fst (run (de_with x0 E70b own70b 20 0)
    (d_init (parse_text "<Plan><kind is=""Once""/><Day>4</Day><size>7</size></Plan>"))) = OOk (VRec [VRec [VInt 8]; VVar 1 []; VInt 7]).
Proof.
  split; [|split; [|vm_compute; reflexivity]].
  - apply (C70_tagged x0 E70b own70b 3 2 (nth 2 E70b (struct_ "" ya0 [])) [vunit "Never"; vunit "Once"] (VVar 0 []) "is"
      (qname "kind") [Attr (qname "is") "Once"] [] 3); try reflexivity; [|lia].
    intros a b [<-|[]] _ <-. right. exists 1%nat. reflexivity.
  - apply (C70_newtype x0 E70b own70b 3 3 (nth 3 E70b (struct_ "" ya0 [])) (PInner (SInt U8)) (qname "size") [] [] [Txt "7"] 3); try reflexivity.
    right. eauto.
Qed.

(** deserializer.rs de_attributes_custom_deserializer *)
Example C70_case_attributes :
  fst (run (de_with x0 E70 own70 20 2) (d_init (parse_text "<Struct />"))) = OOk (VRec [VOpt None; VOpt None]) /\
  fst (run (de_with x0 E70 own70 20 2) (d_init (parse_text
    "<Struct attr_option_string=""some value"" attr_option_struct=""variant2 variant3"" />")))
  = OOk (VRec [VOpt (Some (VStr "some value")); VOpt (Some (VRec [VVec [VStr "variant2"; VStr "variant3"]]))]).
Proof. split; vm_compute; reflexivity. Qed.

(** An implementation that reads its own end tag breaks the contract: the
    derived struct then drops the next start tag, and here fails. *)
Example C70_past_end :
  (exists z, fst (run greedy_day (d_init (parse_text "<Day>11</Day>"))) = OOk (VRec [VInt z])) /\
  fst (run (de_with x0 E70 (fun id => match id with 1%nat => Some greedy_day | _ => None end) 20 0) (d_init (parse_text
    "<Date><Year>2020</Year><Day>11</Day><Month>01</Month></Date>")))
  = OErr "month is a required field of Date".
Proof. split; [exists 22%Z|]; vm_compute; reflexivity. Qed.

(** ** Writing *)

(** Derived types write what the hand-written implementations write, in the
    place of the field or payload, told the name and whether to write a tag as
    derived implementations are. *)
Theorem C70_written :
  forall x E own trees sched,
  AllWrite (fun _ => false) own trees -> AllWrite sched own trees ->
  (forall n, sched n = false) \/ reports_errors E -> forall n,
  (forall id v h, Writes sched h (fst (ser_with x E own n) id v) (fst (enc_with x E trees n) id v h)) /\
  (forall id v, Gives (snd (ser_with x E own n) id v) (snd (enc_with x E trees n) id v)).
Proof. exact own_written. Qed.
Print Assumptions C70_written.

Theorem C70_events :
  forall x E own trees n id v, AllWrite (fun _ => false) own trees ->
  match fst (enc_with x E trees n) id v (Under None) with
  | Some ts => exists w, fst (ser_with x E own n) id v (fun _ => false) w_init = (SOk tt, w) /\ w_evs w = flat_map wtree ts
  | None => fst (fst (ser_with x E own n) id v (fun _ => false) w_init) <> SOk tt
  end.
Proof. exact own_events. Qed.
Print Assumptions C70_events.

Theorem C70_all_derived_writers :
  forall x E n id v,
  fst (ser_with x E (fun _ => None) n) id v = fst (ser_all x E n) id v /\
  snd (ser_with x E (fun _ => None) n) id v = snd (ser_all x E n) id v.
Proof. exact ser_with_none. Qed.
Print Assumptions C70_all_derived_writers.

(** serializer.rs ser_custom *)
Definition writers70 : own_writers := fun id => match id with 1%nat => Some (day_writer, fun _ => SOk ([], [])) | _ => None end.
Definition trees70 : own_trees := fun id => match id with 1%nat => Some (day_trees, fun _ => Some ([], [])) | _ => None end.
Example C70_case_writers : AllWrite (fun _ => false) writers70 trees70.
Proof.
  intros [|[|id]]; try exact I. split; [apply day_written|reflexivity].
Qed.
(** With one that passes errors on, every failing write is covered. *)
Example C70_case_careful : forall sched,
  AllWrite sched (fun id => match id with 1%nat => Some (careful_day, fun _ => SOk ([], [])) | _ => None end) trees70.
Proof.
  intros sched [|[|id]]; try exact I. split; [apply careful_written|reflexivity].
Qed.
Example C70_case_failing :
  calls_made (fun n => Nat.eqb n 3) 0 (wtree (text_elem "Year" "2020") ++ wtree (text_elem "DoubleDay" "10"))
  = (wtree (text_elem "Year" "2020"), false).
Proof. reflexivity. Qed.
Example C70_case_written :
  fst (enc_with x0 E70 trees70 3) 0%nat (VRec [VInt 2020; VInt 1; VRec [VInt 5]]) (Under None)
  = Some [WElem (qname "Date") [] [] [text_elem "Year" "2020"; text_elem "Month" "1"; text_elem "DoubleDay" "10"]] /\
  (match fst (ser_with x0 E70 writers70 3) 0%nat (VRec [VInt 2020; VInt 1; VRec [VInt 5]]) (fun _ => false) w_init with
   | (SOk _, w) => emit_text (EConf false None) (w_evs w)
   | _ => ""
   end = "<Date><Year>2020</Year><Month>1</Month><DoubleDay>10</DoubleDay></Date>").
Proof. split; vm_compute; reflexivity. Qed.
