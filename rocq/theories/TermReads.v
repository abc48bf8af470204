(** * C17: conforming documents, and documents on which the loop spins. *)
From Verif Require Import Str Num Xml XmlText Reader Schema De RunFacts SpecTree TreeFacts SpecText SpecValue ValueProofs
  SpecStruct StructReads Conform.
Open Scope list_scope.

Definition returns {A} (o : outcome A) : Prop := o <> OFuel.

Lemma returns_bind : forall A B (o : outcome A) (k : A -> outcome B), returns o -> (forall a, returns (k a)) ->
  returns (obind o k).
Proof. intros A B [a|m|m|] k Ho Hk; cbn [obind]; auto; discriminate || (exfalso; apply Ho; reflexivity). Qed.
Lemma returns_collect : forall A B (f : A -> outcome (list B)) l, (forall a, In a l -> returns (f a)) -> returns (ocollect f l).
Proof.
  intros A B f l; induction l as [|a l IH]; intros H; [discriminate|]. cbn [ocollect].
  apply returns_bind; [apply H; left; reflexivity|]. intros u. apply returns_bind; [apply IH; intros; apply H; right; assumption|discriminate].
Qed.
Lemma returns_fold : forall A B (f : B -> A -> outcome B) l b, (forall b a, In a l -> returns (f b a)) -> returns (ofold f l b).
Proof.
  intros A B f l; induction l as [|a l IH]; intros b H; [discriminate|]. cbn [ofold].
  apply returns_bind; [apply H; left; reflexivity|]. intros u. apply IH; intros; apply H; right; assumption.
Qed.
Lemma returns_ores : forall A (r : res A), returns (ores r).
Proof. intros A [a|m]; discriminate. Qed.
Lemma returns_store : forall t i w cur, returns (store t i w cur).
Proof.
  intros t i w cur. unfold store. destruct t; try discriminate. destruct cur as [v|]; [|discriminate].
  destruct v as [ | | | | | | | |j l]; try discriminate.
  destruct l as [|u [|]]; try discriminate; try (destruct u; discriminate).
  destruct u; try discriminate. destruct (Nat.eqb i j); discriminate.
Qed.

Lemma decode_returns : forall x E av fv, (forall id s, returns (av id s)) -> (forall id r, returns (fv id r)) ->
  forall t top id, returns (decode x E av fv top id t).
Proof.
  intros x E av fv Hav Hfv t. induction t as [s|n attrs m kids IH] using node_ind'; intros top id.
  { cbn [decode]. discriminate. }
  cbn [decode]. destruct (nth_error E id) as [td|]; [|discriminate].
  destruct (t_body td) as [fs|vs d|k].
  - destruct (if top then _ else _); [discriminate|].
    apply returns_bind; [|intros ca; apply returns_bind; [|intros ck; apply returns_bind; [|intros cf; apply returns_bind; [apply returns_ores|discriminate]]]].
    + apply returns_collect. intros p _. destruct (ya_attribute _); [|discriminate].
      apply returns_collect. intros a _. unfold attr_given. destruct (String.eqb _ _); [|discriminate].
      assert (Hi : forall b s, returns (attr_item x av b s)) by (intros [s0|i] s; [apply returns_ores|apply Hav]).
      destruct (f_ty (snd p)); try (apply returns_bind; [apply Hi|discriminate]).
      apply returns_collect. intros s _. apply returns_bind; [apply Hi|discriminate].
    + apply returns_collect. intros k Hk. unfold kid_given. destruct k as [n' a' m' ks'|s]; [|discriminate].
      destruct (field_for _ _ _) as [[i f]|]; [|discriminate]. destruct (base_of _); [discriminate|].
      apply returns_bind; [apply IH; exact Hk|discriminate].
    + apply returns_collect. intros [i f] _. unfold flat_given. destruct (_ && _)%bool; [|discriminate].
      destruct (f_ty f) as [[]|[]| |]; try discriminate.
      * apply returns_bind; [apply Hfv|discriminate].
      * assert (H := Hfv id0 (Elem n attrs m (filter (is_left (t_attrs td) fs) kids))).
        destruct (fv _ _); try discriminate. exfalso; apply H; reflexivity.
  - destruct (bad_namespace _ _); [discriminate|]. destruct (ya_tag _).
    + destruct (find _ _); discriminate.
    + assert (H : returns (obind (ofold (payload_given x (decode x E av fv false) vs) kids None) (fun o => OOk (or_default d o)))).
      { apply returns_bind; [|discriminate]. apply returns_fold. intros b k Hk. unfold payload_given.
        destruct k as [n' a' m' ks'|s]; [|discriminate]. destruct (variant_for _ _) as [[i [| |]]|]; try discriminate.
        destruct (base_of _); [destruct (parse_simple _ _ _); [apply returns_store|discriminate]|].
        apply returns_bind; [apply IH; exact Hk|intros; apply returns_store]. }
      destruct kids as [|[|s] [|]]; try exact H. discriminate.
  - apply returns_ores.
Qed.

Lemma value_returns : forall x E k top id t, returns (value_of x E k top id t).
Proof.
  intros x E. induction k as [|k IH]; intros top id t; cbn [value_of]; apply decode_returns; try discriminate; auto.
  intros i s. destruct (nth_error E i); [|discriminate]. destruct (unesc s); [apply IH|discriminate].
Qed.

Lemma read_returns : forall x E k id d t, Conforms x E k id t -> exists o, o <> OFuel /\ Reads x E id d t o.
Proof.
  intros x E k id d t H. eexists. split; [|apply (read_decode x E k); [exact H|reflexivity]].
  rewrite <- value_of_decode. apply value_returns.
Qed.

(** ** The loop spins at the end of the document *)
Lemma spin : forall x E rec fuel fl td fs ln sd st d, ya_flatten (t_attrs td) = false ->
  fst (vrun (struct_loop x E rec fuel fl td fs ln sd st) (VState d [] FEnd)) = OFuel.
Proof.
  intros x E rec fuel fl td fs ln sd st d H. induction fl as [|fl IH]; [reflexivity|].
  cbn [struct_loop]. rewrite vrun_peek_. cbn [vpeek v_rest v_fin fin_res]. rewrite H. exact IH.
Qed.

Lemma vrun_bind_fuel : forall A B (p : prog A) (f : A -> prog B) v, fst (vrun p v) = OFuel -> fst (vrun (bind p f) v) = OFuel.
Proof. intros A B p f v H. rewrite vrun_bind. destruct (vrun p v) as [[]]; cbn in *; congruence. Qed.

(** The struct [Book] of de_basic, read from a document whose root is called
    like its first field. *)
Lemma C17_hang_lemma : forall fuel, from_str x0 [book] fuel 0 "<author>X</author>" = OFuel.
Proof.
  intros fuel. unfold from_str, from_events. rewrite (proj1 (run_view _ _ _)).
  assert (Hp : view (d_init (parse_text "<author>X</author>")) =
    VState 0 [EStart (Name "author" None None) [] []; EChars "X"; EEnd (Name "author" None None)] FEnd) by (vm_compute; reflexivity).
  rewrite Hp. clear Hp. destruct fuel as [|fuel]; [reflexivity|].
  cbn [de]. unfold de_body. cbn [nth_error book struct_ t_body]. unfold de_struct. rewrite vrun_peek_.
  cbn [vpeek v_rest vrun v_depth Nat.eqb]. cbn [namespace_check n_ns].
  apply vrun_bind_fuel. destruct fuel as [|fuel]; [reflexivity|].
  cbn [struct_loop]. rewrite vrun_peek_. cbn [vpeek v_rest].
  rewrite vrun_bind.
  match goal with |- context [vrun ?p (VState 0 ?l FEnd)] =>
    assert (Hs : vrun p (VState 0 l FEnd) = (OOk (LState [SOne (Some (VStr "X")); SOne None] UOff 0), VState 0 [] FEnd))
      by (vm_compute; reflexivity); rewrite Hs; clear Hs end.
  rewrite vrun_bind.
  match goal with |- context [vrun ?p (VState 0 [] FEnd)] =>
    assert (Hs : vrun p (VState 0 [] FEnd) = (OOk [SOne (Some (VStr "X")); SOne None], VState 0 [] FEnd))
      by (vm_compute; reflexivity); rewrite Hs; clear Hs end.
  apply spin. reflexivity.
Qed.
