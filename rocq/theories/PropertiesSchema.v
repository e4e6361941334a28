(** Property C37 of the schema builders. [build_schema] runs a script of builder calls on the model,
    [defined] (SSchema.v) is the definition a script leaves for a series. *)
From Verif Require Import PSchema.

(** Duplicate names never survive; exactly the last definitions are declared. *)
Theorem C37_last_definition_wins : forall s sc, build_schema s = Ret sc ->
  NoDup (map fst sc) /\ Forall (fun dg => NoDup (map fst (snd dg)) /\ snd dg <> []) sc /\
  (forall d, In d (map fst sc) <-> In d (map fst s)) /\
  forall d m ms, declares sc d m ms <-> defined s d m = Some ms.
Proof. exact build_schema_defined. Qed.
Print Assumptions C37_last_definition_wins.
(** A script can be built iff no device is empty. *)
Theorem C37_empty_device_panics : forall s,
  (Exists (fun da => snd da = []) s -> build_schema s = Panic PExplicit) /\
  (Forall (fun da => snd da <> []) s -> exists sc, build_schema s = Ret sc).
Proof.
  intros s. split; intros H.
  - apply Exists_exists in H. destruct H as ([d a] & I & E). cbn in E. subst a. exact (build_schema_empty s d I).
  - destruct (build_schema_ok s H) as (sc & E & _). exists sc. exact E.
Qed.
Print Assumptions C37_empty_device_panics.
(** Scripts with the same final definitions: same results, same file, same panics, on any sink. *)
Theorem C37_same_definitions_same_behaviour : forall s1 s2 sc1 sc2, build_schema s1 = Ret sc1 -> build_schema s2 = Ret sc2 ->
  (forall d m, defined s1 d m = defined s2 d m) ->
  forall out, match writer_new sc1 out, writer_new sc2 out with
  | (o1, Some w1), (o2, Some w2) => o1 = o2 /\ forall p snap ops,
      match run p snap w1 ops, run p snap w2 ops with
      | Ret (w1', l1), Ret (w2', l2) => l1 = l2 /\ w_io w1' = w_io w2' /\ file_bytes w1' = file_bytes w2'
      | Panic e1, Panic e2 => e1 = e2
      | _, _ => False
      end
  | (o1, None), (o2, None) => o1 = o2
  | _, _ => False
  end.
Proof.
  intros s1 s2 sc1 sc2 B1 B2 D out. pose proof (schema_behaviour s1 s2 sc1 sc2 B1 B2 D out) as H.
  destruct (writer_new sc1 out) as [o1 [w1|]], (writer_new sc2 out) as [o2 [w2|]]; auto. destruct H as [E H]. split; [exact E|].
  intros p snap ops. specialize (H p snap ops). destruct (run p snap w1 ops) as [[x l1]|e], (run p snap w2 ops) as [[y l2]|f]; cbn in H; auto.
  destruct H as [A B]. cbn in A, B. unfold file_bytes. rewrite B. auto.
Qed.
Print Assumptions C37_same_definitions_same_behaviour.
(** Copying a map that was built: building again, from a built map, changes nothing. *)
Theorem C37_build_idempotent : forall s sc, build_schema s = Ret sc -> schema_builder_build sc = sc /\
  forall d g, In (d, g) sc -> device_builder_build g = Ret g.
Proof.
  intros s sc B. destruct (build_schema_defined _ _ B) as (N & F & _). split; [apply hm_copy_id; exact N|].
  intros d g I. rewrite Forall_forall in F. destruct (F _ I) as [Ng NE]. cbn [snd] in *. unfold device_builder_build.
  destruct g; [congruence|]. rewrite hm_copy_id; auto.
Qed.
Print Assumptions C37_build_idempotent.

(** "d" added twice, the second time with "a" defined twice; "e" in between *)
Definition ex_script : script :=
  [([100], [([97], mkMS INT64 PLAIN SNAPPY); ([122], mkMS INT32 PLAIN SNAPPY)]);
   ([101], [([97], mkMS INT32 PLAIN UNCOMPRESSED)]);
   ([100], [([97], mkMS INT32 PLAIN UNCOMPRESSED); ([98], mkMS INT64 TS2DIFF SNAPPY); ([97], mkMS FLOAT PLAIN UNCOMPRESSED)])].
Definition ex_script' : script :=
  [([100], [([98], mkMS INT64 TS2DIFF SNAPPY); ([97], mkMS FLOAT PLAIN UNCOMPRESSED)]);
   ([101], [([97], mkMS INT32 PLAIN UNCOMPRESSED)])].
Example C37_case :
  build_schema ex_script = Ret [([100], [([97], mkMS FLOAT PLAIN UNCOMPRESSED); ([98], mkMS INT64 TS2DIFF SNAPPY)]);
                                ([101], [([97], mkMS INT32 PLAIN UNCOMPRESSED)])] /\
  build_schema ex_script' = Ret [([100], [([98], mkMS INT64 TS2DIFF SNAPPY); ([97], mkMS FLOAT PLAIN UNCOMPRESSED)]);
                                ([101], [([97], mkMS INT32 PLAIN UNCOMPRESSED)])] /\
  (forall d m, defined ex_script d m = defined ex_script' d m) /\
  build_schema [([100], [])] = Panic PExplicit.
Proof.
  split; [reflexivity|]. split; [reflexivity|]. split; [|reflexivity]. intros d m. unfold defined, last_def, ex_script, ex_script'. cbn [rev app find fst].
  destruct (same_name [100] d) eqn:A; cbn [option_map snd].
  - destruct (same_name [101] d) eqn:B; cbn [option_map snd rev app find fst].
    + apply same_name_eq in A. apply same_name_eq in B. congruence.
    + destruct (same_name [97] m) eqn:X, (same_name [98] m) eqn:Y; reflexivity.
  - destruct (same_name [101] d) eqn:B; reflexivity.
Qed.
