(** Vocabulary of the properties of the construction programs in benchmark/. *)
From Coq Require Import List Arith Bool Ascii String.
From Verif Require Import MStore MSrIndex MSrCsa MFactory SpecFactory MBench MBuild.
Import ListNotations.

(** The rate that a call works with: 0 when its class has none. *)
Definition build_rate (c : build_config) (j : build_job) : nat := if bc_sampling c then bj_rate j else 0.
(** The calls [js] are of registered functions, with at least one round. *)
Definition may_build (configs : list build_config) (j : build_job) : Prop := bj_idx j < List.length configs /\ 0 < bj_iters j.
(** One of the calls [js] constructs the class [kd] with the rate [s]. *)
Definition constructs (configs : list build_config) (js : list build_job) (kd : kind) (s : nat) : Prop :=
  exists j c, In j js /\ nth_error configs (bj_idx j) = Some c /\ bc_class c = kd /\ build_rate c j = s.
(** What the calls [js] leave the files of: the classes that they construct, and also the two classes that the program
    does not construct, SrCSASlim with validity marks or areas, after SrCSASlim and SrCSA with validity marks or areas
    of the same rate. *)
Inductive provides (configs : list build_config) (js : list build_job) : kind -> nat -> Prop :=
| pv_built : forall kd s, constructs configs js kd s -> provides configs js kd s
| pv_slim : forall kd kd' s, constructs configs js KSlim s -> constructs configs js kd' s ->
    In kd [KSlimVM; KSlimVA] -> In kd' [KSrCSAVM; KSrCSAVA] -> provides configs js kd s.
(** A call of a query program for an index that the calls [js] of the construction program provide; a benchmark that
    takes one pattern at a time needs one. *)
Definition may_query {E} (class_of : E -> kind) (configs : list build_config) (js : list build_job) (queries : list (idx_config E)) (ps : list pattern) (j : job) : Prop :=
  exists c, nth_error queries (jb_idx j) = Some c /\
    provides configs js (class_of (ic_type c)) (if ic_sampling c then jb_rate j else 0) /\
    0 < jb_iters j /\ (jb_bench j = BMicro -> ps <> []).
(** Number of text positions that an index keeps as samples. *)
Definition kept_samples (v : loaded) : nat :=
  match v with
  | LdR _ | LdCsa _ | LdRaw _ => 0
  | LdSr ix => List.length (sr_samples ix)
  | LdSc ix => List.length (sc_samples ix)
  end.
(** The file of a name that a log is in: the last call that wrote it. *)
Fixpoint log_find (l : list (string * nat)) (k : string) : option nat :=
  match l with [] => None | (x, n) :: l => if String.eqb x k then Some n else log_find l k end.
(** A name in upper case. *)
Fixpoint upper (s : string) : string :=
  match s with
  | EmptyString => EmptyString
  | String c s => let k := nat_of_ascii c in String (if (97 <=? k) && (k <=? 122) then ascii_of_nat (k - 32) else c) (upper s)
  end.
