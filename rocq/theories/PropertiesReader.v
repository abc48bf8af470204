(** * Properties of the reader runtime: C01-C06.
    Vocabulary: SpecReader.v.  The clients are all programs that do not call
    the public method [inner_next] themselves, generated code among them; for
    those that do see PropertiesClient.v, where the full claims of C01, C02
    and C04 are refuted. *)
From Verif Require Import Str Xml XmlText Reader Schema De SpecReader ReaderProofs Conform.
Open Scope list_scope.

(** C01 (missing: clients that call [inner_next]).  Inserting peeks anywhere in a client changes neither its outcome
    nor the outcome of any code run afterwards. *)
Theorem C01_peek_is_invisible_partial :
  forall A (p q : prog A), peeks_added p q ->
  forall st,
    fst (run q st) = fst (run p st) /\
    (forall B (later : prog B),
       fst (run later (snd (run q st))) = fst (run later (snd (run p st)))).
Proof. exact C01_lemma. Qed.
Print Assumptions C01_peek_is_invisible_partial.

Definition nm (s : string) : name := Name s None None.
Definition doc1 : list event :=
  [EStartDoc; EStart (nm "a") [] []; EComment "c"; EStart (nm "b") [] []; EChars "x";
   EEnd (nm "b"); EPI "p"; EEnd (nm "a"); EEndDoc].

Example C01_case :
  let p := Next (fun _ => Next (fun r => Depth (fun d => Ret (r, d)))) in
  let q := Peek (fun _ => Next (fun _ => Peek (fun _ => Peek (fun _ =>
             Next (fun r => Depth (fun d => Ret (r, d))))))) in
  peeks_added p q /\
  fst (run q (d_init (Stream doc1 FEnd))) = OOk (Ok (EStart (nm "b") [] []), 2).
Proof. split; [repeat (constructor; intros) | vm_compute; reflexivity]. Qed.

(** C02 (missing: histories with calls of [inner_next]).  [exec] runs any history of calls and lists the events handed out;
    [None] is the underflow panic. *)
Theorem C02_depth_counts_open_elements_partial :
  forall (h : list call) (s : stream),
    (forall given st, exec h (d_init s) = Some (given, st) ->
       d_depth st + ends given = starts given) /\
    (well_nested (s_evs s) -> exists given st, exec h (d_init s) = Some (given, st)).
Proof. exact C02_lemma. Qed.
Print Assumptions C02_depth_counts_open_elements_partial.

Lemma wn_doc1 : well_nested doc1.
Proof.
  unfold doc1.
  apply (wn_app [EStartDoc]); [constructor; discriminate|].
  apply (wn_app (EStart (nm "a") [] [] ::
    [EComment "c"; EStart (nm "b") [] []; EChars "x"; EEnd (nm "b"); EPI "p"] ++ [EEnd (nm "a")]) [EEndDoc]);
    [|constructor; discriminate].
  constructor.
  apply (wn_app [EComment "c"]); [constructor; discriminate|].
  apply (wn_app (EStart (nm "b") [] [] :: [EChars "x"] ++ [EEnd (nm "b")]) [EPI "p"]);
    [constructor|]; constructor; discriminate.
Qed.

Example C02_case :
  well_nested doc1 /\
  match exec [CPeek; CNext; CNext; CPeek; CPeek; CNext] (d_init (Stream doc1 FEnd)) with
  | Some (given, st) => d_depth st = 2 /\ starts given = 2 /\ ends given = 0
  | None => False
  end.
Proof. split; [exact wn_doc1 | vm_compute; auto]. Qed.

(** C03.  The declaration, processing instructions and comments have no
    influence on any client, wherever they stand. *)
Theorem C03_misc_events_invisible :
  forall A (p : prog A) d evs f,
  let st := DState d (Stream evs f) None in
  let st' := DState d (Stream (strip evs) f) None in
    fst (run p st) = fst (run p st') /\
    (forall B (later : prog B),
       fst (run later (snd (run p st))) = fst (run later (snd (run p st')))).
Proof. exact C03_lemma. Qed.
Print Assumptions C03_misc_events_invisible.

(** The same for the generated code of every type. *)
Theorem C03_derived :
  forall x E fuel id evs f,
  from_events x E fuel id (Stream evs f) = from_events x E fuel id (Stream (strip evs) f).
Proof. intros. exact (proj1 (C03_lemma _ (de x E fuel id) 0 evs f)). Qed.
Print Assumptions C03_derived.

Example C03_case : strip doc1 <> doc1 /\ List.length (strip doc1) = 6.
Proof. split; [discriminate|reflexivity]. Qed.

(** C04 (missing: start tags read by [inner_next]).  Right after a start tag (depth S d): everything up to the matching
    end tag goes to the callback in order, what follows stays unread. *)
Theorem C04_skip_element_partial :
  forall S (g : S -> event -> S) s d inner n rest f,
  well_nested inner ->
  exists fuel0, forall fuel, fuel0 <= fuel ->
    run (skip_element fuel (fun s e => Ret (g s e)) s)
        (DState (Datatypes.S d) (Stream (inner ++ EEnd n :: rest) f) None)
    = (OOk (fold_left g (strip inner ++ [EEnd n]) s), DState d (Stream rest f) None).
Proof. exact C04_ok. Qed.
Print Assumptions C04_skip_element_partial.

(** If the source fails before the element is closed, its error is returned. *)
Theorem C04_skip_element_error :
  forall S (g : S -> event -> S) s d pre m,
  (forall a b, pre = a ++ b -> ends a <= starts a) ->
  exists fuel0, forall fuel, fuel0 <= fuel ->
    fst (run (skip_element fuel (fun s e => Ret (g s e)) s)
             (DState (Datatypes.S d) (Stream pre (FErr m)) None)) = OErr m.
Proof. exact C04_err. Qed.
Print Assumptions C04_skip_element_error.

Example C04_case :
  run (skip_element 20 (fun s e => Ret (s ++ [e])) [])
      (DState 3 (Stream (doc1 ++ EEnd (nm "z") :: [EChars "after"]) FEnd) None)
  = (OOk (strip doc1 ++ [EEnd (nm "z")]), DState 2 (Stream [EChars "after"] FEnd) None).
Proof. vm_compute. reflexivity. Qed.

(** C05. *)
Theorem C05_read_inner_value :
  forall A (f : prog A) st a st',
  run (read_inner_value f) st = (OOk a, st') <->
  exists n ats ns st1 st2,
    next_event st = (Some (Ok (EStart n ats ns)), st1) /\
    run f st1 = (OOk a, st2) /\
    next_event st2 = (Some (Ok (EEnd n)), st').
Proof. exact C05_lemma. Qed.
Print Assumptions C05_read_inner_value.

(** In full: the original depth is restored whatever the closure does. *)
Definition C05_depth_full : Prop :=
  forall A (f : prog A) st a st', run (read_inner_value f) st = (OOk a, st') -> d_depth st' = d_depth st.
(** The closure may read the start tag of an element with the same name, and
    leave its end tag. *)
Theorem C05_depth_refuted : ~ C05_depth_full.
Proof.
  intros H. specialize (H _ next_ (d_init (Stream [EStart (nm "b") [] []; EStart (nm "b") [] []; EEnd (nm "b"); EEnd (nm "b")] FEnd))).
  specialize (H _ _ eq_refl). vm_compute in H. discriminate H.
Qed.
Print Assumptions C05_depth_refuted.
(** The original depth is restored exactly if the closure itself leaves the
    depth as it found it.  Missing for the full claim: closures that do not. *)
Theorem C05_depth_restored_partial :
  forall A (f : prog A) st a st' st1 st2 r,
  run (read_inner_value f) st = (OOk a, st') ->
  next_event st = (Some r, st1) -> run f st1 = (OOk a, st2) ->
  (d_depth st' = d_depth st <-> d_depth st2 = d_depth st1).
Proof. exact C05_depth. Qed.
Print Assumptions C05_depth_restored_partial.

Example C05_case :
  run (read_inner_value next_) (d_init (Stream [EStart (nm "b") [] []; EChars "x"; EEnd (nm "b"); EEndDoc] FEnd))
  = (OOk (EChars "x"), DState 0 (Stream [EEndDoc] FEnd) None).
Proof. vm_compute. reflexivity. Qed.

(** C06.  If a client ends with the part [c1] of its input still unread, then
    whatever input replaces [c1], and however it ends, the outcome is the
    same. *)
Theorem C06_unread_input_irrelevant :
  forall A (p : prog A) pre c1 f1 c2 f2,
  c1 <> [] ->
  List.length c1 <= List.length (s_evs (d_src (snd (run p (d_init (Stream (pre ++ c1) f1)))))) ->
  fst (run p (d_init (Stream (pre ++ c2) f2))) = fst (run p (d_init (Stream (pre ++ c1) f1))).
Proof. exact C06_lemma. Qed.
Print Assumptions C06_unread_input_irrelevant.

Definition point_ty : env := [struct_ "Point" ya0 [fld "x" (tint Num.I32); fld "y" (tint Num.I32)]].
Definition point_doc : list event :=
  [EStart (nm "Point") [] []; EStart (nm "x") [] []; EChars "1"; EEnd (nm "x");
   EStart (nm "y") [] []; EChars "2"; EEnd (nm "y"); EEnd (nm "Point")].
Example C06_case :
  let r := run (de x0 point_ty 20 0) (d_init (Stream (point_doc ++ [EEndDoc]) FEnd)) in
  fst r = OOk (VRec [VInt 1; VInt 2]) /\ s_evs (d_src (snd r)) = [EEndDoc] /\
  fst (run (de x0 point_ty 20 0) (d_init (Stream (point_doc ++ [EStart (nm "junk") [] []]) (FErr "bad"))))
  = OOk (VRec [VInt 1; VInt 2]).
Proof. vm_compute. auto. Qed.
