(** Specification side: what a sequence of builder calls defines. *)
From Verif Require Export MSchema SHist.

(** A script of builder calls: devices in the order of [TsFileSchemaBuilder::add], each with the
    measurements in the order of [DeviceBuilder::add]. *)
Definition script := list (list Z * list (list Z * mschema)).
(** The last definition of a name. *)
Definition last_def {V} (k : list Z) (l : list (list Z * V)) : option V :=
  option_map snd (find (fun kv => same_name (fst kv) k) (rev l)).
Definition defined (s : script) (d m : list Z) : option mschema :=
  match last_def d s with Some g => last_def m g | None => None end.

(** Running a script with the builders of the model (user code, as in the examples of writer/schema.rs:88-130). *)
Definition build_device (adds : list (list Z * mschema)) : outcome mgroup :=
  device_builder_build
    (fold_left (fun b a => device_builder_add (fst a) (ms_type (snd a)) (ms_enc (snd a)) (ms_comp (snd a)) b) adds device_builder_new).
Definition build_schema (s : script) : outcome schema :=
  let* gs := mapM (fun da => let* g := build_device (snd da) in Ret (fst da, g)) s in
  Ret (schema_builder_build (fold_left (fun b dg => schema_builder_add (fst dg) (snd dg) b) gs schema_builder_new)).
