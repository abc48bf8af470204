(** * The hand-written implementations of the repo's tests (C70). *)
From Verif Require Import Str Num Xml XmlText Reader Schema De Ser RunFacts SpecTree SpecText SpecEnc EncProofs Conform SpecOwn OwnProofs OwnWrite.
Open Scope list_scope.

(** [impl YaDeserialize for Day] (yaserde/tests/deserializer.rs:807-834): it
    peeks and reads the start tag, peeks the text, and stops before it.
    Simplifications: the message for a wrong name is shortened; [2 * i32] does
    not overflow. *)
Definition day_reader : prog value :=
  Peek (fun r =>
    match r with
    | Er m => Throw m
    | Ok (EStart n _ _) =>
        if String.eqb (n_local n) "Day" then
          Next (fun _ =>
            Peek (fun r =>
              match r with
              | Er m => Throw m
              | Ok (EChars t) =>
                  match parse_int I32 t with
                  | Ok z => Ret (VRec [VInt (2 * z)])
                  | Er m => Crash ("called `Result::unwrap()` on an `Err` value: " +++ m)
                  end
              | Ok _ => Throw "Characters missing"
              end))
        else Throw "Wrong StartElement name"
    | Ok _ => Throw "StartElement missing"
    end).

(** What it makes of an element. *)
Definition day_means (t : node) : outcome value :=
  match t with
  | Elem n _ _ (Txt s :: []) =>
      if String.eqb (n_local n) "Day" then
        match parse_int I32 s with
        | Ok z => OOk (VRec [VInt (2 * z)])
        | Er m => OPanic ("called `Result::unwrap()` on an `Err` value: " +++ m)
        end
      else OErr "Wrong StartElement name"
  | Elem n _ _ _ => if String.eqb (n_local n) "Day" then OErr "Characters missing" else OErr "Wrong StartElement name"
  | Txt _ => OErr "StartElement missing"
  end.

Lemma day_read : forall d n a m ks, (ks = [] \/ exists s, ks = [Txt s]) ->
  ReadBy false d day_reader (Elem n a m ks) (day_means (Elem n a m ks)).
Proof.
  intros d n a m ks Hks. apply reads_vreads. intros tail f _. unfold day_means.
  destruct Hks as [->|[s ->]]; cbn [flat flat_map app vrun day_reader vpeek v_rest]; destruct (String.eqb (n_local n) "Day"); try reflexivity.
  cbn [vrun vnext v_rest v_depth bump v_fin vpeek]. destruct (parse_int I32 s) as [z|e]; [|reflexivity].
  exists (S d), [EChars s; EEnd n]. split; [constructor|reflexivity].
Qed.

(** The same reading up to and including its end tag. *)
Definition greedy_day : prog value :=
  bind day_reader (fun v => Next (fun _ => Next (fun _ => Ret v))).

(** [impl YaDeserialize for Attributes] (yaserde/tests/deserializer.rs:246-268);
    the loop is bounded. *)
Fixpoint split_blank (s cur : string) : list value :=
  match s with
  | "" => [VStr cur]
  | String c r => if Ascii.eqb c " " then VStr cur :: split_blank r "" else split_blank r (cur +++ String c "")
  end.
Fixpoint words_reader (n : nat) : prog value :=
  match n with
  | O => Stuck
  | S k =>
      Next (fun r =>
        match r with
        | Er m => Throw m
        | Ok (EStart _ _ _) => words_reader k
        | Ok (EChars t) => Ret (VRec [VVec (split_blank t "")])
        | Ok _ => Throw "Unable to parse attribute"
        end)
  end.

(** [impl YaSerialize for Day] (yaserde/tests/serializer.rs:385-406): writes an
    element of its own name, whatever it is asked for; errors are dropped. *)
Definition day_writer (v : value) : sm unit :=
  match v with
  | VRec [VInt z] =>
      sbind (swallow (write (start_plain "DoubleDay"))) (fun _ =>
      sbind (swallow (write (WChars (show_Z (z * 2))))) (fun _ =>
      sbind (swallow (write (WEnd None))) (fun _ => sret tt)))
  | _ => sstuck
  end.
(** The same passing errors on. *)
Definition careful_day (v : value) : sm unit :=
  match v with
  | VRec [VInt z] =>
      sbind (write (start_plain "DoubleDay")) (fun _ =>
      sbind (write (WChars (show_Z (z * 2)))) (fun _ => write (WEnd None)))
  | _ => sstuck
  end.
Definition day_trees (v : value) (h : how) : option (list wnode) :=
  match v with
  | VRec [VInt z] => Some [text_elem "DoubleDay" (show_Z (z * 2))]
  | _ => None
  end.

Lemma day_written : forall v h, Writes (fun _ => false) h (day_writer v) (day_trees v h).
Proof.
  intros v h w Hw. unfold day_writer, day_trees.
  destruct v as [| | | | | | |[|[| |z| | | | | |] [|]]|]; try (cbn; discriminate).
  rewrite calls_never.
  eexists _, _. split; [reflexivity|]. cbn [w_evs w_stack w_calls]. split; [cbn; rewrite <- !app_assoc; reflexivity|].
  split; [reflexivity|]. split; [reflexivity|]. cbn. lia.
Qed.

Lemma careful_written : forall sched v h, Writes sched h (careful_day v) (day_trees v h).
Proof.
  intros sched v h. apply writes_agree. unfold careful_day, day_trees.
  destruct v as [| | | | | | |[|[| |z| | | | | |] [|]]|]; try (intros w _; cbn; discriminate).
  exact (agree_text_elem sched "DoubleDay" (show_Z (z * 2)) h).
Qed.
