(** * C51, and C18 once more: why reading fails.

    Vocabulary: SpecCause.v ([Cause], [Panics], [lenient]), SpecSafe.v ([defined]). *)
From Verif Require Import Str Num Xml XmlText Reader Schema De Ser Conform SpecTree SpecStruct SpecSafe SpecCause CauseProofs.
Open Scope list_scope.

(** ** C51 *)
Theorem C51_cause :
  forall x E fuel id s m, from_str x E fuel id s = OErr m -> Cause x E id (parse_text s) m.
Proof. exact error_cause. Qed.
Print Assumptions C51_cause.

(** A type without required fields only complains about malformed documents
    and namespaces. *)
Theorem C51_lenient :
  forall x E, lenient x E -> forall fuel id s m, from_str x E fuel id s = OErr m ->
    s_fin (parse_text s) = FErr m \/
    exists n a nm u, In (EStart n a nm) (s_evs (parse_text s)) /\ n_ns n = Some u /\
      m = "bad namespace for " +++ n_local n +++ ", found " +++ u.
Proof. exact lenient_errors. Qed.
Print Assumptions C51_lenient.

(** One document for each kind of cause. *)
Definition E_c51 :=
  [struct_ "Top" (a_ns [("n", "urn:n")] (a_prefix "n" ya0))
     [fldA "no" (a_attr ya0) (TOpt (BSimple (SInt U8))); fldA "nos" (a_attr ya0) (TVec (BSimple (SInt U8)));
      fldA "kind" (a_attr ya0) (TOpt (BUser 1)); fld "sub" (tuser 2); fldA "more" (a_flatten ya0) (tuser 3);
      fld "tagged" (TOpt (BUser 4)); fld "new" (TOpt (BUser 5)); fld "list" (TOpt (BUser 1))];
   enum_ "Kind" ya0 [vunit "A"; vnew "B" (TVec (BSimple SString)); vnew "C" (TVec (BUser 2))] (VVar 0 []);
   struct_ "Sub" ya0 [fld "s" tstr];
   struct_ "More" ya0 [fldA "m" (a_attr ya0) tstr];
   enum_ "Tagged" (a_tag "t" ya0) [vunit "X"] (VVar 0 []);
   TypeDef "New" ya0 (DPrim (PInner (SInt I8)))].
Definition fails (s m : string) : Prop := from_str x0 E_c51 60 0 s = OErr m.
Example C51_case :
  from_str x0 E_c51 60 0 "<Top m='1' no='7' kind='A'><sub><s>a</s></sub></Top>" =
    OOk (VRec [VOpt (Some (VInt 7)); VVec []; VOpt (Some (VVar 0 [])); VRec [VStr "a"]; VRec [VStr "1"]; VOpt None; VOpt None; VOpt None]) /\
  fails "<Top m='1'><sub><s>a</s></sub></Tap>" "Unexpected closing tag: Tap != Top" /\
  fails "<Top xmlns='urn:x' m='1'><sub><s>a</s></sub></Top>" "bad namespace for Top, found urn:x" /\
  fails "<Top m='1'></Top>" "sub is a required field of Top" /\
  fails "<Top m='1'><sub/></Top>" "s is a required field of Sub" /\
  fails "<Top m='1' no='256'/>" "number too large to fit in target type" /\
  fails "<Top m='1' nos='1 x'/>" "invalid digit found in string" /\
  fails "<Top m='1' kind='&lt;'/>" "Unexpected token inside opening tag" /\
  fails "<Top><sub><s>a</s></sub></Top>" "m is a required field of More" /\
  fails "<Top m='1'><tagged/></Top>" "Expected enum tagged with t" /\
  fails "<Top m='1'><new>x</new></Top>" "invalid digit found in string" /\
  fails "<Top m='1'><list><C><s/></C></list></Top>" "s is a required field of Sub" /\
  fails "<Top m='1'><list><B>a</B><C><s>b</s></C></list></Top>" "Got sequence of different types" /\
  from_str x0 E_c51 60 1 "<B>a</B>" = OErr "End of document, missing some content ?".
Proof. unfold fails. repeat split; vm_compute; reflexivity. Qed.

Definition E_lenient :=
  [struct_ "L" ya0 [fldA "a" (a_attr ya0) (TOpt (BSimple SString)); fldA "n" (a_default "default_number" ya0) (tint I32);
     fld "l" (TVec (BUser 0)); fldA "f" (a_flatten ya0) (TOpt (BUser 0))]].
Example C51_lenient_case :
  lenient x0 E_lenient /\
  from_str x0 E_lenient 60 0 "<L b='1'><n>x</n><l a='2'/><q><n>5</n></q>t</L>" =
    OOk (VRec [VOpt None; VInt 42; VVec [VRec [VOpt (Some (VStr "2")); VInt 42; VVec []; VOpt None]]; VOpt None]) /\
  from_str x0 E_lenient 60 0 "<L xmlns='urn:l'/>" = OErr "bad namespace for L, found urn:l" /\
  from_str x0 E_lenient 60 0 "<L><l></L>" = OErr "Unexpected closing tag: L != l".
Proof.
  split; [|vm_compute; auto]. intros id td H. destruct id as [|[|id]]; try discriminate H. injection H as <-. eexists. split; [reflexivity|].
  intros f Hf. cbn [In] in Hf. decompose [or] Hf; subst; try contradiction; (split; [discriminate|]); split; try discriminate; intros; reflexivity.
Qed.

(** ** C18: the only panics are those of payloads that do not parse. *)
Theorem C18_panic_cause :
  forall x E, defined E -> forall id, nth_error E id <> None ->
  forall fuel s m, from_str x E fuel id s = OPanic m -> Panics x E id (parse_text s) m.
Proof. exact panic_cause. Qed.
Print Assumptions C18_panic_cause.

Definition E_panic := [struct_ "S" ya0 [fldA "e" (a_flatten ya0) (TOpt (BUser 1))];
  enum_ "E" ya0 [vunit "None"; vnew "Integer" (tint I32)] (VVar 0 [])].
Example C18_panic_case :
  defined E_panic /\ nth_error E_panic 0 <> None /\
  from_str x0 E_panic 60 0 "<S><Integer>12</Integer></S>" = OOk (VRec [VOpt (Some (VVar 1 [VInt 12]))]) /\
  from_str x0 E_panic 60 0 "<S><Integer>abc</Integer></S>" =
    OPanic "called `Result::unwrap()` on an `Err` value: invalid digit found in string".
Proof.
  split; [|split; [discriminate|vm_compute; auto]].
  intros id td H. destruct id as [|[|[|id]]]; try discriminate H; injection H as <-; cbn [t_body].
  - intros f [<-|[]]. split; [discriminate|]. intros _. exists 1. right; reflexivity.
  - intros l a fl t [H|[H|[]]]; inversion H; subst. exact I.
Qed.
