(** * C17: further documents on which the generated loop spins. *)
From Verif Require Import Str Num Xml XmlText Reader Schema De Ser Conform RunFacts ReaderProofs SpecTree TreeFacts TermReads.
Open Scope list_scope.

(** An inner struct is read from an element named like its own field. *)
Definition E_same := [struct_ "Outer" ya0 [fld "b" (tuser 1)]; struct_ "Inner" ya0 [fld "b" tstr]].
(** A text is the name of a variant with a struct in it. *)
Definition E_said := [enum_ "Kind" ya0 [vnew "Item" (tuser 1)] (VVar 0 []); struct_ "Item" ya0 [fld "n" tstr]].
(** An element of simple type holds an element. *)
Definition E_held := [struct_ "S" ya0 [fld "a" tstr; fld "b" (tuser 1)]; struct_ "B" ya0 [fld "c" tstr]].
(** A flattened struct has an element named like the outer struct. *)
Definition E_left := [struct_ "Doc" ya0 [fldA "inner" (a_flatten ya0) (tuser 1)]; struct_ "Inner" ya0 [fld "Doc" tstr]].
Local Notation nm s := (Name s None None).

Ltac view_of s := unfold from_str, from_events; rewrite (proj1 (run_view _ _ _));
  let v := eval vm_compute in (view (d_init (parse_text s))) in
  replace (view (d_init (parse_text s))) with v by (vm_compute; reflexivity).
(** Runs the first part of a sequence, which does not need fuel. *)
Ltac part := rewrite vrun_bind;
  match goal with |- context [vrun ?p (VState ?d ?l FEnd)] =>
    let r := eval vm_compute in (vrun p (VState d l FEnd)) in
    let Hs := fresh in assert (Hs : vrun p (VState d l FEnd) = r) by (vm_compute; reflexivity); rewrite Hs; clear Hs end; cbv beta iota.
Ltac one f := destruct f as [|f]; [reflexivity|]; cbn [struct_loop enum_loop]; rewrite vrun_peek_; cbn [vpeek v_rest].

Ltac start f := destruct f as [|f]; [reflexivity|]; cbn [de]; unfold de_body; cbn [nth_error E_same E_said E_held E_left struct_ enum_ t_body].
Ltac struct_at := unfold de_struct at 1; rewrite vrun_peek_; cbn [vpeek v_rest vrun v_depth Nat.eqb]; cbn [namespace_check n_ns]; apply vrun_bind_fuel.
Ltac end_tag := cbn [vrun v_depth]; match goal with |- context [if ?b then _ else _] => let r := eval vm_compute in b in change b with r end;
  cbv iota; part; part.

(** Reading a type at a field. *)
Definition field_then (rec : nat -> prog value) (i id : nat) (ss : list slot) : prog (list slot) :=
  bind (rec id) (fun v => bind next_ (fun _ => Ret (upd i (put_slot v) ss))).

Lemma same_hang : forall fuel, from_str x0 E_same fuel 0 "<Outer><b>x</b></Outer>" = OFuel.
Proof.
  intros fuel. view_of "<Outer><b>x</b></Outer>". start fuel. struct_at.
  one fuel. part. part. one fuel. apply vrun_bind_fuel.
  match goal with |- fst (vrun _ ?v) = _ =>
    change (fst (vrun (bind (field_then (de x0 E_same (S (S fuel))) 0 1 [SOne None]) (fun ss => Ret (LState ss UOff 1))) v) = OFuel) end.
  apply vrun_bind_fuel. unfold field_then. apply vrun_bind_fuel.
  generalize (S (S fuel)) as f. clear fuel. intros fuel. start fuel. struct_at.
  one fuel. part. part. one fuel. end_tag.
  apply spin. reflexivity.
Qed.

Lemma said_hang : forall fuel, from_str x0 E_said fuel 0 "<Kind>Item</Kind>" = OFuel.
Proof.
  intros fuel. view_of "<Kind>Item</Kind>". start fuel. unfold de_enum at 1. rewrite vrun_peek_. cbn [vpeek v_rest vrun v_depth].
  cbn [namespace_check n_ns]. apply vrun_bind_fuel.
  one fuel. part. part.
  rewrite vrun_peek_. cbn [vpeek v_rest]. apply vrun_bind_fuel.
  match goal with |- fst (vrun _ ?v) = _ =>
    change (fst (vrun (bind (de x0 E_said (S fuel) 1) (fun w => bind (set_payload (tuser 1) 0 w None) (fun c => Next (fun _ => Ret (c, false))))) v) = OFuel) end.
  apply vrun_bind_fuel.
  generalize (S fuel) as f. clear fuel. intros fuel. start fuel. struct_at.
  one fuel. part. part. one fuel. end_tag.
  apply spin. reflexivity.
Qed.

Lemma held_hang : forall fuel, from_str x0 E_held fuel 0 "<S><a>t<y/></a><b><c>1</c></b></S>" = OFuel.
Proof.
  intros fuel. view_of "<S><a>t<y/></a><b><c>1</c></b></S>". start fuel. struct_at.
  one fuel. part. part. one fuel. part. part. one fuel. end_tag. one fuel. end_tag.
  one fuel. apply vrun_bind_fuel.
  change (fst (vrun (bind (field_then (de x0 E_held (S (S (S (S (S fuel)))))) 1 1 [SOne None; SOne None]) (fun ss => Ret (LState ss UOff 0)))
    (VState 2 [EStart (nm "c") [] []; EChars "1"; EEnd (nm "c"); EEnd (nm "b"); EEnd (nm "S")] FEnd)) = OFuel).
  apply vrun_bind_fuel. unfold field_then. apply vrun_bind_fuel.
  generalize (S (S (S (S (S fuel))))) as f. clear fuel. intros fuel. start fuel. struct_at.
  one fuel. part. part. one fuel. end_tag. one fuel. end_tag.
  apply spin. reflexivity.
Qed.

Definition left_text : string := "<?xml version=""1.0"" encoding=""utf-8""?><Doc>x</Doc>".
Lemma left_inner : forall fuel, fst (run (de x0 E_left fuel 1) (d_init (parse_text left_text))) = OFuel.
Proof.
  intros fuel. rewrite (proj1 (run_view _ _ _)).
  replace (view (d_init (parse_text left_text))) with (VState 0 [EStart (nm "Doc") [] []; EChars "x"; EEnd (nm "Doc")] FEnd) by (vm_compute; reflexivity).
  start fuel. struct_at. one fuel. part. part. apply spin. reflexivity.
Qed.
Lemma left_step : forall rec fuel,
  fst (run (rec 1) (d_init (parse_text left_text))) = OFuel ->
  fst (run (de_body x0 E_left rec (S (S (S (S fuel)))) 0) (d_init (parse_text "<Doc>x</Doc>"))) = OFuel.
Proof.
  intros rec fuel H. rewrite (proj1 (run_view _ _ _)).
  replace (view (d_init (parse_text "<Doc>x</Doc>"))) with (VState 0 [EStart (nm "Doc") [] []; EChars "x"; EEnd (nm "Doc")] FEnd) by (vm_compute; reflexivity).
  unfold de_body. cbn [nth_error E_left struct_ t_body]. unfold de_struct. rewrite vrun_peek_. cbn [vpeek v_rest vrun v_depth Nat.eqb].
  cbn [namespace_check n_ns]. part. apply vrun_bind_fuel.
  unfold visit_unused. cbn [l_unused visit_flatten]. apply vrun_bind_fuel.
  cbn [fldA f_attrs f_ty a_flatten ya0 ya_attribute ya_flatten negb andb tuser].
  apply vrun_bind_fuel. unfold from_str_in.
  match goal with |- context [emit_text default_econf ?l] =>
    replace (emit_text default_econf l) with left_text by (vm_compute; reflexivity) end.
  rewrite H. reflexivity.
Qed.
Lemma de_more : forall x E fuel id, de x E (S fuel) id = de_body x E (de x E fuel) fuel id.
Proof. reflexivity. Qed.
Lemma left_hang : forall fuel, from_str x0 E_left fuel 0 "<Doc>x</Doc>" = OFuel.
Proof.
  intros fuel. destruct fuel as [|fuel]; [reflexivity|].
  do 4 (destruct fuel as [|fuel]; [vm_compute; reflexivity|]).
  unfold from_str, from_events. rewrite de_more. apply left_step. apply left_inner.
Qed.
