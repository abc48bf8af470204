(** * C01-C06 for clients that call [inner_next] themselves.

    Vocabulary: SpecClient.v; clients: Client.v.  For the clients that do not,
    generated code among them, see PropertiesReader.v. *)
From Verif Require Import Str Xml XmlText Reader Client SpecReader SpecClient ReaderProofs ClientProofs.
Open Scope list_scope.

Definition nm' (s : string) : name := Name s None None.
Definition start' (s : string) : event := EStart (nm' s) [] [].

(** ** C01 *)
Definition C01_full : Prop :=
  forall A (p q : client A), kpeeks_added p q -> forall st, fst (crun q st) = fst (crun p st).
(** [inner_next] passes the peeked event over. *)
Theorem C01_inner_next_refuted : ~ C01_full.
Proof.
  intros H. pose (p := KInner (fun r => KRet r)).
  specialize (H _ p (KPeek (fun _ => p)) ltac:(repeat constructor) (d_init (Stream [EChars "a"; EChars "b"] FEnd))).
  vm_compute in H. discriminate H.
Qed.
Print Assumptions C01_inner_next_refuted.
(** Missing for the full claim: peeks right before an [inner_next].  With the
    others, the client ends as without them, or has one event more peeked. *)
Theorem C01_client_partial :
  forall A (p q : client A), kpeeks_safe false p q -> forall st,
    fst (crun q st) = fst (crun p st) /\
    (snd (crun q st) = snd (crun p st) \/ snd (crun q st) = snd (peek (snd (crun p st)))).
Proof. exact C01_client. Qed.
Print Assumptions C01_client_partial.
(** All peeks added to a client without [inner_next] are of this kind, and
    [crun] runs it as [run] does. *)
Theorem C01_without_inner_next :
  forall A (p q : prog A), peeks_added p q -> forall b, kpeeks_safe b (of_prog p) (of_prog q).
Proof. exact of_prog_safe. Qed.
Print Assumptions C01_without_inner_next.
Theorem C01_same_runs : forall A (p : prog A) st, crun (of_prog p) st = run p st.
Proof. exact crun_of_prog. Qed.
Print Assumptions C01_same_runs.

Example C01_client_case :
  let p := KInner (fun _ => KNext (fun r => KInner (fun r' => KDepth (fun d => KRet (r, r', d))))) in
  let q := KInner (fun _ => KPeek (fun _ => KPeek (fun _ => KNext (fun r => KInner (fun r' => KDepth (fun d => KPeek (fun _ => KRet (r, r', d)))))))) in
  kpeeks_safe false p q /\
  fst (crun q (d_init (Stream [start' "a"; start' "b"; EChars "x"; EEnd (nm' "b")] FEnd))) = OOk (Ok (start' "b"), Ok (EChars "x"), 1).
Proof. split; [repeat (constructor; intros) | vm_compute; reflexivity]. Qed.

(** ** C02 *)
Definition C02_full : Prop :=
  forall h s, (forall given st, kexec h (d_init s) = Some (given, st) -> d_depth st + ends given = starts given) /\
    (well_nested (s_evs s) -> exists given st, kexec h (d_init s) = Some (given, st)).
(** A start tag taken by [inner_next] is not counted, its end tag is. *)
Theorem C02_inner_next_refuted : ~ C02_full.
Proof.
  intros H. destruct (H [CaInner; CaNext] (Stream [start' "a"; EEnd (nm' "a")] FEnd)) as [_ H1].
  destruct H1 as (given & st & H1); [apply (wn_elem (nm' "a") [] [] []); constructor|]. vm_compute in H1. discriminate H1.
Qed.
Print Assumptions C02_inner_next_refuted.
(** Missing for the full claim: that the subtraction does not underflow. *)
Theorem C02_client_partial :
  forall h s given st, kexec h (d_init s) = Some (given, st) -> d_depth st + ends given = starts given.
Proof. exact C02_client. Qed.
Print Assumptions C02_client_partial.
Example C02_client_case :
  exists given st, kexec [CaNext; CaPeek; CaInner; CaNext; CaNext] (d_init (Stream [start' "a"; start' "b"; EChars "x"; EEnd (nm' "b"); EEnd (nm' "a")] FEnd)) = Some (given, st) /\
    given = [start' "a"; start' "b"; EEnd (nm' "b")] /\ d_depth st = 1.
Proof. do 2 eexists. vm_compute. auto. Qed.

(** ** C03 *)
Theorem C03_client_events :
  forall A (p : client A) d pk evs f,
  let st := DState d (Stream evs f) pk in
  let st' := DState d (Stream (strip evs) f) pk in
    fst (crun p st) = fst (crun p st') /\
    (forall B (later : client B), fst (crun later (snd (crun p st))) = fst (crun later (snd (crun p st')))).
Proof. exact C03_client. Qed.
Print Assumptions C03_client_events.
Example C03_client_case :
  fst (crun (KInner (fun r => KRet r)) (d_init (Stream [EStartDoc; EComment "c"; start' "a"] FEnd))) = OOk (Ok (start' "a")).
Proof. reflexivity. Qed.

(** ** C04 *)
Definition C04_full : Prop :=
  forall S (g : S -> event -> S) s st0 d inner n rest f, well_nested inner ->
  tag_read st0 (DState d (Stream (inner ++ EEnd n :: rest) f) None) ->
  exists fuel0, forall fuel, fuel0 <= fuel ->
    run (skip_element fuel (fun s e => Ret (g s e)) s) (DState d (Stream (inner ++ EEnd n :: rest) f) None)
    = (OOk (fold_left g (strip inner ++ [EEnd n]) s), DState (d_depth st0) (Stream rest f) None).
(** At the root the end tag is one too many for the depth. *)
Theorem C04_inner_next_refuted : ~ C04_full.
Proof.
  intros H. destruct (H unit (fun s _ => s) tt (d_init (Stream [start' "a"; EEnd (nm' "a")] FEnd)) 0 [] (nm' "a") [] FEnd) as (fuel0 & H1).
  - constructor.
  - exists (nm' "a"), [], []. right. reflexivity.
  - specialize (H1 (Datatypes.S (Datatypes.S fuel0)) ltac:(auto)). cbn in H1. discriminate H1.
Qed.
Print Assumptions C04_inner_next_refuted.
(** What happens at every depth: after [next_event] the depth is [S d] (see
    also [C04_skip_element_partial]); after [inner_next] it is that before the
    start tag, so that it ends lower by one, or panics at the root. *)
Theorem C04_every_depth :
  forall S (g : S -> event -> S) s d inner n rest f, well_nested inner -> exists fuel0, forall fuel, fuel0 <= fuel ->
    run (skip_element fuel (fun s e => Ret (g s e)) s) (DState d (Stream (inner ++ EEnd n :: rest) f) None)
    = match d with
      | O => (OPanic "attempt to subtract with overflow", DState 0 (Stream rest f) None)
      | Datatypes.S d' => (OOk (fold_left g (strip inner ++ [EEnd n]) s), DState d' (Stream rest f) None)
      end.
Proof. exact C04_inner. Qed.
Print Assumptions C04_every_depth.
Example C04_client_case :
  let st := snd (inner_event (DState 1 (Stream [start' "a"; start' "b"; EEnd (nm' "b"); EEnd (nm' "a"); EChars "after"] FEnd) None)) in
  run (skip_element 20 (fun s e => Ret (s ++ [e])) []) st
  = (OOk [start' "b"; EEnd (nm' "b"); EEnd (nm' "a")], DState 0 (Stream [EChars "after"] FEnd) None).
Proof. vm_compute. reflexivity. Qed.

(** ** C05 *)
Theorem C05_client_closure :
  forall A (f : client A) st a st',
  crun (kread_inner_value f) st = (OOk a, st') <->
  exists n ats ns st1 st2,
    next_event st = (Some (Ok (EStart n ats ns)), st1) /\
    crun f st1 = (OOk a, st2) /\
    next_event st2 = (Some (Ok (EEnd n)), st').
Proof. exact C05_client. Qed.
Print Assumptions C05_client_closure.
Example C05_client_case :
  crun (kread_inner_value (KInner (fun r => KRet r))) (d_init (Stream [start' "b"; EChars "x"; EEnd (nm' "b"); EEndDoc] FEnd))
  = (OOk (Ok (EChars "x")), DState 0 (Stream [EEndDoc] FEnd) None).
Proof. vm_compute. reflexivity. Qed.

(** ** C06 *)
Theorem C06_client_input :
  forall A (p : client A) pre c1 f1 c2 f2, c1 <> [] ->
  List.length c1 <= List.length (s_evs (d_src (snd (crun p (d_init (Stream (pre ++ c1) f1)))))) ->
  fst (crun p (d_init (Stream (pre ++ c2) f2))) = fst (crun p (d_init (Stream (pre ++ c1) f1))).
Proof. exact C06_client. Qed.
Print Assumptions C06_client_input.
Example C06_client_case :
  let p := KPeek (fun r => KInner (fun r' => KRet (r, r'))) in
  s_evs (d_src (snd (crun p (d_init (Stream [start' "a"; EChars "x"; EEndDoc] FEnd))))) = [EEndDoc] /\
  fst (crun p (d_init (Stream [start' "a"; EChars "x"; EChars "other"] FEnd))) = OOk (Ok (start' "a"), Ok (EChars "x")).
Proof. vm_compute. auto. Qed.
