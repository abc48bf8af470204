(** * C71: fields written by the implementations of the library ([usize],
      [isize], [char]; simple types in the place of a type parameter).

    Vocabulary: SpecStd.v. *)
From Verif Require Import Str Num Xml XmlText Reader Schema Ser Conform Macro SpecText SpecEnc SpecPrint SpecOwn SpecStd SpecMacro StdProofs.
Open Scope list_scope.

(** The document of any value of any types some of which are such types: the
    text of its trees, where values of such types are bare texts, whatever
    name their field has. *)
Theorem C71_document :
  forall x E s n c id v t,
  std_document x E s n c id v = SOk t <->
  exists ts, fst (enc_with x E (std_trees x s) n) id v (Under None) = Some ts /\ t = page c ts.
Proof. exact std_page. Qed.
Print Assumptions C71_document.

(** A struct with such fields only: attributes have their names, elements are
    missing, their texts are joined. *)
Theorem C71_struct_partial :
  forall x E s n c id td fs vs ts,
  nth_error E id = Some td -> t_body td = DStruct fs -> s id = None -> ya_flatten (t_attrs td) = false ->
  std_fields x s fs vs ts ->
  std_document x E s (S n) c id (VRec vs)
  = SOk (page c [WElem (qname (ser_root td)) (std_attributes (t_attrs td) fs ts) (declared (t_attrs td)) (std_content fs ts)]).
Proof. exact std_struct. Qed.
Print Assumptions C71_struct_partial.

(** Two values have the same document exactly if their texts are the same when
    joined. *)
Theorem C71_alike :
  forall x E s n c id td fs vs vs' ts ts',
  nth_error E id = Some td -> t_body td = DStruct fs -> s id = None -> ya_flatten (t_attrs td) = false ->
  (forall f, In f fs -> ya_attribute (f_attrs f) = false) ->
  std_fields x s fs vs ts -> std_fields x s fs vs' ts' ->
  (std_document x E s (S n) c id (VRec vs) = std_document x E s (S n) c id (VRec vs') <-> joined ts = joined ts').
Proof. exact std_alike. Qed.
Print Assumptions C71_alike.

(** Such a value alone is written, but not as an XML document. *)
Theorem C71_alone :
  forall x E s n c id k v t, s id = Some k -> std_text x k v = Some t ->
  std_document x E s n c id v
    = SOk ((if c_decl c then "<?xml version=""1.0"" encoding=""utf-8""?>" else "") +++ with_references in_text t) /\
  exists m, s_fin (parse_text ((if c_decl c then "<?xml version=""1.0"" encoding=""utf-8""?>" else "")
                               +++ with_references in_text t)) = FErr m.
Proof. exact std_root. Qed.
Print Assumptions C71_alone.

(** A failing write is never reported; the text is then missing. *)
Theorem C71_silent :
  forall x k v t sched w, std_text x k v = Some t ->
  exists w', std_writer x k v sched w = (SOk tt, w') /\
  (sched (w_calls w) = true -> w_evs w' = w_evs w).
Proof. exact std_silent. Qed.
Print Assumptions C71_silent.

(** ** Examples *)
Definition E71 : env :=
  [struct_ "a" ya0 [fld "b" (tuser 1); fldA "c" (a_attr ya0) (tuser 2); fld "d" (tuser 3)];
   struct_ "usize" ya0 []; struct_ "char" ya0 []; struct_ "isize" ya0 [];
   struct_ "e" ya0 [fld "f" (TVec (BUser 1)); fld "g" (tint U8); fld "h" (TOpt (BUser 2))];
   struct_ "p" ya0 [fld "q" (tuser 1); fld "r" (tuser 1)];
   struct_ "base" ya0 [fld "background" (tuser 7)]; struct_ "bool" ya0 []].
Definition s71 (id : nat) : option std :=
  match id with 1%nat => Some StdUsize | 2%nat => Some StdChar | 3%nat => Some StdIsize | 7%nat => Some (StdSimple SBool) | _ => None end.
Definition c71 : config := Config false false None.

Example C71_case_fields :
  std_fields x0 s71 [fld "b" (tuser 1); fldA "c" (a_attr ya0) (tuser 2); fld "d" (tuser 3)]
             [VInt 12; VInt 60; VInt (-3)] ["12"; "<"; "-3"].
Proof.
  constructor; [split; [exists 1%nat, StdUsize; auto|repeat split]|].
  constructor; [split; [exists 2%nat, StdChar; auto|repeat split]|].
  constructor; [split; [exists 3%nat, StdIsize; auto|repeat split]|]. constructor.
Qed.
Example C71_case_struct :
  std_document x0 E71 s71 3 c71 0 (VRec [VInt 12; VInt 60; VInt (-3)]) = SOk "<a c=""&amp;lt;"">12-3</a>".
Proof. vm_compute. reflexivity. Qed.
Example C71_case_document :
  std_document x0 E71 s71 3 c71 4 (VRec [VVec [VInt 1; VInt 2]; VInt 3; VOpt (Some (VInt 8364))])
  = SOk ("<e>12<g>3</g>" +++ utf8 8364 +++ "</e>").
Proof. vm_compute. reflexivity. Qed.
(** [Base<bool>] of tests/generic.rs, which is no [Base { background: bool }]. *)
Example C71_case_generic :
  std_document x0 E71 s71 3 c71 6 (VRec [VBool true]) = SOk "<base>true</base>" /\
  to_string_with_config x0 [struct_ "base" ya0 [fld "background" (TBase (BSimple SBool))]] c71 0 (VRec [VBool true])
  = SOk "<base><background>true</background></base>".
Proof. split; vm_compute; reflexivity. Qed.
(** The macros take every type whose name is none of the simple ones, nor
    [Option] or [Vec], for a type of the user, wherever it is defined: the three
    types, and type parameters. *)
Theorem C71_user :
  forall segs n args, (forall m, ~ In (n, m) prelude) ->
  from_path (RPath (segs ++ [(n, args)])) = MOk (KUser (segs ++ [(n, args)])).
Proof. exact user_path. Qed.
Print Assumptions C71_user.
Example C71_case_user : forall n, In n ["usize"; "isize"; "char"; "G"] -> forall m, ~ In (n, m) prelude.
Proof. intros n Hn m Hm. cbn in Hn, Hm. repeat (destruct Hn as [<-|Hn]; [repeat (destruct Hm as [Hm|Hm]; [discriminate Hm|]); exact Hm|]). exact Hn. Qed.
(** Unlike [u64]. *)
Example C71_case_source :
  map (fun n => from_path (RPath [(n, None)])) ["usize"; "isize"; "char"; "u64"]
  = [MOk (KUser [("usize", None)]); MOk (KUser [("isize", None)]); MOk (KUser [("char", None)]); MOk (KSimple (SInt U64))].
Proof. reflexivity. Qed.
Example C71_case_alone :
  std_document x0 E71 s71 3 config0 1 (VInt 5) = SOk "<?xml version=""1.0"" encoding=""utf-8""?>5".
Proof. vm_compute. reflexivity. Qed.

(** ** What is false *)

(** The elements of such fields are missing. *)
Theorem C71_refuted :
  ~ (forall x E s n id td fs vs ts i f t tr,
     nth_error E id = Some td -> t_body td = DStruct fs -> s id = None -> ya_flatten (t_attrs td) = false ->
     std_fields x s fs vs ts -> nth_error fs i = Some f -> nth_error ts i = Some t -> ya_attribute (f_attrs f) = false ->
     fst (enc_with x E (std_trees x s) n) id (VRec vs) (Under None) = Some [tr] ->
     holds (text_elem (field_qname (t_attrs td) f) t) tr).
Proof.
  intros H.
  specialize (H x0 E71 s71 3%nat 0%nat _ _ [VInt 12; VInt 60; VInt (-3)] ["12"; "<"; "-3"] 0%nat _ _ _
    eq_refl eq_refl eq_refl eq_refl C71_case_fields eq_refl eq_refl eq_refl eq_refl).
  cbn in H. intuition discriminate.
Qed.
Print Assumptions C71_refuted.

(** Different values are not told apart. *)
Theorem C71_apart_refuted :
  ~ (forall x E s n c id v v' t,
     std_document x E s n c id v = SOk t -> std_document x E s n c id v' = SOk t -> v = v').
Proof.
  intros H.
  specialize (H x0 E71 s71 3%nat c71 5%nat (VRec [VInt 1; VInt 23]) (VRec [VInt 12; VInt 3]) "<p>123</p>").
  specialize (H ltac:(vm_compute; reflexivity) ltac:(vm_compute; reflexivity)). discriminate H.
Qed.
Print Assumptions C71_apart_refuted.

(** A struct is reported as written although a write failed. *)
Theorem C71_errors_refuted :
  ~ (forall x E s n id v sched w,
     fst (ser_with x E (std_writers x s) n) id v sched w_init = (SOk tt, w) ->
     forall i, (i < w_calls w)%nat -> sched i = false).
Proof.
  intros H.
  specialize (H x0 E71 s71 3%nat 5%nat (VRec [VInt 1; VInt 23]) (fun i => Nat.eqb i 1) _ eq_refl 1%nat).
  cbn in H. discriminate H. lia.
Qed.
Print Assumptions C71_errors_refuted.
