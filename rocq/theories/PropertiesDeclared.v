(** * C64: where a type is declared does not matter.

    Vocabulary: SpecDeclared.v ([same_text M E E']: the types that [M] relates
    have the same text, with names of types that [M] relates; [agree_from]). *)
From Verif Require Import Str Num Xml XmlText Reader Schema De Ser Conform SpecDeclared DeclaredProofs.
Open Scope list_scope.

(** Two types with the same text, in different programs or declared twice in
    one: they read the same from every event source, *)
Theorem C64_reading :
  forall x M E E' i j, same_text M E E' -> M i j ->
  forall fuel s, from_events x E fuel i s = from_events x E' fuel j s.
Proof. intros x M E E' i j HE H. exact (declared_reading x M E E' HE i j H). Qed.
Print Assumptions C64_reading.

(** in every state of a reader, which they leave in the same state, *)
Theorem C64_state :
  forall x M E E' i j, same_text M E E' -> M i j ->
  forall fuel st, run (De.de x E fuel i) st = run (De.de x E' fuel j) st.
Proof. intros x M E E' i j HE H. exact (declared_nested x M E E' HE i j H). Qed.
Print Assumptions C64_state.

(** and write the same to every writer, failing or not, *)
Theorem C64_writing :
  forall x M E E' i j, same_text M E E' -> M i j ->
  forall v sched w, ser x E i v sched w = ser x E' j v sched w.
Proof. intros x M E E' i j HE H. exact (declared_ser x M E E' HE i j H). Qed.
Print Assumptions C64_writing.

Theorem C64_text :
  forall x M E E' i j, same_text M E E' -> M i j ->
  forall c v, to_string_with_config x E c i v = to_string_with_config x E' c j v.
Proof. intros x M E E' i j HE H. exact (declared_to_string x M E E' HE i j H). Qed.
Print Assumptions C64_text.

(** Types that are not reached from a type can be changed or left out. *)
Theorem C64_unreached :
  forall x i E E', agree_from i E E' ->
  (forall fuel s, from_events x E fuel i s = from_events x E' fuel i s) /\
  (forall v sched w, ser x E i v sched w = ser x E' i v sched w).
Proof. exact unreached. Qed.
Print Assumptions C64_unreached.

(** A recursive type and an enum, declared in another order between others; and
    with the recursion going through a copy of the type. *)
Definition node64 (self kind : nat) :=
  struct_ "Node" ya0 [fldA "kind" (a_attr ya0) (tuser kind); fldA "sub" (a_rename "Node" ya0) (TVec (BUser self))].
Definition kind64 := enum_ "Kind" ya0 [vunit "A"; vunit "B"] (VVar 0 []).
Definition E64 : env := [node64 0 1; kind64].
Definition E64' : env := [struct_ "Other" ya0 [fld "x" tstr]; kind64; node64 4 1; struct_ "Node" ya0 []; node64 2 1].
Definition M64 (i j : nat) : Prop := (i = 0 /\ (j = 2 \/ j = 4)) \/ (i = 1 /\ j = 1).
Definition text64 := "<Node kind=""B""><Node kind=""A""/><Node kind=""B""><Node kind=""A""/></Node></Node>".
Definition value64 := VRec [VVar 1 []; VVec [VRec [VVar 0 []; VVec []]; VRec [VVar 1 []; VVec [VRec [VVar 0 []; VVec []]]]]].
Example C64_case :
  same_text M64 E64 E64' /\ M64 0 2 /\
  from_str x0 E64 60 0 text64 = OOk value64 /\ from_str x0 E64' 60 2 text64 = OOk value64 /\
  to_string x0 E64 0 value64 = to_string x0 E64' 4 value64 /\
  agree_from 1 E64 E64' /\ ~ agree_from 0 E64 E64'.
Proof.
  assert (Hn : forall k, M64 0 k -> eq_typedef M64 (node64 0 1) (node64 k 1)).
  { intros k Hk. split; [reflexivity|]. split; [reflexivity|]. constructor; [|constructor; [|constructor]];
      (split; [reflexivity|]); (split; [reflexivity|]); cbn; [right; split; reflexivity|exact Hk]. }
  assert (Hk : eq_typedef M64 kind64 kind64) by (repeat constructor).
  split.
  { intros i j [[-> [->| ->]]|[-> ->]]; eexists; eexists; (split; [reflexivity|]); (split; [reflexivity|]);
      [apply Hn; unfold M64; auto|apply Hn; unfold M64; auto|exact Hk]. }
  split; [unfold M64; auto|]. split; [vm_compute; reflexivity|]. split; [vm_compute; reflexivity|]. split; [vm_compute; reflexivity|].
  split.
  - assert (H1 : forall j, reaches E64 1 j -> j = 1).
    { intros j H. induction H as [|j k td _ -> Ht Hm]; [reflexivity|]. injection Ht as <-. destruct Hm as (v & [<-|[<-|[]]] & []). }
    intros j Hj. rewrite (H1 j Hj). exists kind64. split; reflexivity.
  - intros H. destruct (H 0 (re_here _ _)) as (td & H1 & H2). injection H1 as <-. discriminate H2.
Qed.
