(** writer/schema.rs: the schema builders. A hash map is an association list with distinct keys; the
    list order stands for the (unspecified) iteration order. *)
From Verif Require Export MTypes.

(** [HashMap::insert] (std): replaces the value of an existing key. writer/schema.rs:19-26, 33, 56-72, 80. *)
Fixpoint hm_insert {V} (k : str) (v : V) (m : list (str * V)) : list (str * V) :=
  match m with
  | [] => [(k, v)]
  | (k', v') :: m' => if str_eqb k k' then (k', v) :: m' else (k', v') :: hm_insert k v m'
  end.
(** [HashMap::get] (std) on the maps of writer/mod.rs:263, 274. *)
Fixpoint hm_get {V} (k : str) (m : list (str * V)) : option V :=
  match m with
  | [] => None
  | (k', v') :: m' => if str_eqb k k' then Some v' else hm_get k m'
  end.

(** [DeviceBuilder::new] writer/schema.rs:50-54 *)
Definition device_builder_new : mgroup := [].
(** [DeviceBuilder::add] writer/schema.rs:56-72 *)
Definition device_builder_add (m : str) (t : dtype) (e : encoding) (c : compression) (b : mgroup) : mgroup :=
  hm_insert m (mkMS t e c) b.
(** copy loop of the [build] functions, writer/schema.rs:32-34 and 79-81 *)
Definition hm_copy {V} (m : list (str * V)) : list (str * V) :=
  fold_left (fun acc kv => hm_insert (fst kv) (snd kv) acc) m [].
(** [DeviceBuilder::build] writer/schema.rs:74-85: panics on an empty device *)
Definition device_builder_build (b : mgroup) : outcome mgroup :=
  match b with
  | [] => Panic PExplicit
  | _ => Ret (hm_copy b)
  end.
(** [TsFileSchemaBuilder::new] writer/schema.rs:13-17 *)
Definition schema_builder_new : schema := [].
(** [TsFileSchemaBuilder::add] writer/schema.rs:19-26 *)
Definition schema_builder_add (d : str) (g : mgroup) (b : schema) : schema := hm_insert d g b.
(** [TsFileSchemaBuilder::build] writer/schema.rs:28-36 *)
Definition schema_builder_build (b : schema) : schema := hm_copy b.

(** [Schema::simple] writer/mod.rs:294-309 *)
Definition schema_simple (d m : str) (t : dtype) (e : encoding) (c : compression) : outcome schema :=
  let* g := device_builder_build (device_builder_add m t e c device_builder_new) in
  Ret (schema_builder_build (schema_builder_add d g schema_builder_new)).
