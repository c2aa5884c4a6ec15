(* Model of SPICE set-up and body states (utils/spice.py) and of ray_cluster.py. *)
From Coq Require Import String ZArith QArith List Bool.
From Verif Require Import Base TimeModel CacheModel.
Import ListNotations.
Open Scope string_scope.
Open Scope list_scope.
Open Scope Z_scope.

(* membership in a Python set or list of texts (utils/spice.py:266, 280) *)
Definition has_k (k : string) (l : list string) : bool := existsb (String.eqb k) l.

(* One process: the files SPICE has loaded, in load order and with repetitions (sp.furnsh, sp.unload);
   _REGISTERED_KERNELS (utils/spice.py:32); the numbers n for which ADAM_CORE_SPICE_INITIALIZED_n is in os.environ
   (utils/spice.py:120-122). *)
Record proc := mk_proc { pool : list string; reg : list string; env : list Z }.

(* utils/spice.py:22-29 DEFAULT_KERNELS; the paths of the packages stand as their names *)
Definition default_kernels : list string :=
  ["leapseconds"; "de440"; "eop_predict"; "eop_historical"; "eop_high_prec"; "earth_itrf93"].

(* utils/spice.py:245-254 list_registered_kernels *)
Definition list_registered_kernels (p : proc) : list string := reg p.

(* utils/spice.py:257-268 register_spice_kernel.  [loadable k]: sp.furnsh accepts the file now; otherwise it raises
   (a SpiceyError, here RuntimeError) and the set is not changed. *)
Definition register (loadable : string -> bool) (p : proc) (k : string) : proc * option err :=
  if has_k k (reg p) then (p, None)
  else if loadable k then (mk_proc (pool p ++ [k]) (k :: reg p) (env p), None)
  else (p, Some RuntimeError).

(* sp.unload(kernel): the last load of the file is undone (utils/spice.py:281) *)
Fixpoint unload_first (k : string) (l : list string) : list string :=
  match l with
  | [] => []
  | x :: r => if String.eqb k x then r else x :: unload_first k r
  end.
(* utils/spice.py:281 *)
Definition unload (k : string) (l : list string) : list string := rev (unload_first k (rev l)).

(* utils/spice.py:271-282 unregister_spice_kernel *)
Definition unregister (p : proc) (k : string) : proc :=
  if has_k k (reg p) then mk_proc (unload k (pool p)) (filter (fun x => negb (String.eqb k x)) (reg p)) (env p)
  else p.

(* utils/spice.py:125-126: the loop over the kernels, which the first exception ends *)
Fixpoint register_all (loadable : string -> bool) (p : proc) (ks : list string) : proc * option err :=
  match ks with
  | [] => (p, None)
  | k :: r => match register loadable p k with
              | (p1, None) => register_all loadable p1 r
              | (p1, Some e) => (p1, Some e)
              end
  end.

(* utils/spice.py:90-128 setup_SPICE; [pid]: os.getpid() *)
Definition setup (loadable : string -> bool) (pid : Z) (kernels : option (list string)) (force : bool) (p : proc)
  : proc * option err :=
  let ks := match kernels with None => default_kernels | Some l => l end in
  if existsb (Z.eqb pid) (env p) && negb force then (p, None)
  else match register_all loadable p ks with
       | (p1, None) => (mk_proc (pool p1) (reg p1) (pid :: env p1), None)
       | (p1, Some e) => (p1, Some e)
       end.

(* The processes of a machine.  A forked process has a copy of everything; a spawned one (such as a Ray worker) starts without
   kernels and inherits the environment.  Operating system behaviour, not code of the library. *)
Inductive act :=
| Setup (pid : Z) (kernels : option (list string)) (force : bool) (loadable : string -> bool)
| RegisterK (pid : Z) (k : string) (loadable : string -> bool)
| UnregisterK (pid : Z) (k : string)
| Fork (parent child : Z)
| Spawn (parent child : Z)
| Exit (pid : Z).

(* live processes by their number; see [act] *)
Definition world := Z -> option proc.
(* see [act] *)
Definition upd (w : world) (pid : Z) (p : option proc) : world := fun q => if Z.eqb q pid then p else w q.

(* one step: calls of utils/spice.py:90-128 and 257-282 in a live process, or a change of the processes; a number in use is not
   given to a new process *)
Definition step (w : world) (a : act) : world :=
  match a with
  | Setup pid ks force ok => match w pid with Some p => upd w pid (Some (fst (setup ok pid ks force p))) | None => w end
  | RegisterK pid k ok => match w pid with Some p => upd w pid (Some (fst (register ok p k))) | None => w end
  | UnregisterK pid k => match w pid with Some p => upd w pid (Some (unregister p k)) | None => w end
  | Fork a b => match w a, w b with Some p, None => upd w b (Some p) | _, _ => w end
  | Spawn a b => match w a, w b with Some p, None => upd w b (Some (mk_proc [] [] (env p))) | _, _ => w end
  | Exit a => upd w a None
  end.
(* an execution of [step]s *)
Definition run (w : world) (l : list act) : world := fold_left step l w.

(* the start: one Python process, nothing loaded (utils/spice.py:32), with an environment *)
Definition start (pid : Z) (e : list Z) : world := upd (fun _ => None) pid (Some (mk_proc [] [] e)).

(* ---- utils/spice.py:285-360 get_spice_body_state ---- *)
Section Body.
  (* [et]: ET of a time (time/time.py:139-145); [spkez body et frame origin]: the six numbers in km and km/s, None: SpiceyError.
     Numbers are exact rationals; no null times. *)
  Context {T E : Type} (et : T -> E) (E_eqb : E -> E -> bool) (spkez : Z -> E -> string -> Z -> option (list Q)).

  (* utils/spice.py:347-348: constants.py:11, 13 *)
  Definition km_p_au : Q := 1495978707 # 10.
  (* constants.py:13 *)
  Definition s_p_day : Q := 86400.
  (* utils/spice.py:347-348: states / KM_P_AU, then states[:, 3:] *= S_P_DAY *)
  Definition to_au (s : list Q) : list Q :=
    let s1 := map (fun x => (x / km_p_au)%Q) s in
    firstn 3 s1 ++ map (fun x => (x * s_p_day)%Q) (skipn 3 s1).

  (* utils/spice.py:335, 340: states[mask, :] = state *)
  Definition fill (ets : list E) (e : E) (s : list Q) (states : list (option (list Q))) : list (option (list Q)) :=
    map (fun q => if E_eqb (fst q) e then Some s else snd q) (combine ets states).

  (* utils/spice.py:334-344: loop over the unique epochs, an exception ends it *)
  Fixpoint body_loop (body : Z) (f : string) (origin : Z) (ets : list E) (us : list E) (states : list (option (list Q)))
    : result (list (option (list Q))) :=
    match us with
    | [] => Ok states
    | e :: r => match spkez body e f origin with
                | Some s => body_loop body f origin ets r (fill ets e s states)
                | None => Err ValueError
                end
    end.

  (* the table returned (utils/spice.py:350-360): time, state (None: memory of np.empty that was never written), frame, origin *)
  Record states_table := mk_states { st_rows : list (T * option (list Q)); st_frame : string; st_origin : list Z }.

  (* utils/spice.py:285-360 without setup_SPICE(), modelled above *)
  Definition get_spice_body_state (body : Z) (times : list T) (frame : string) (origin : Z) : result states_table :=
    bind (spice_frame frame) (fun f =>
      let ets := map et times in
      bind (body_loop body f origin ets (uniq E_eqb ets) (map (fun _ => None) times)) (fun states =>
        Ok (mk_states (combine times (map (option_map to_au) states)) frame (repeat origin (List.length times))))).
End Body.
Arguments states_table : clear implicits.

(* utils/spice.py:171-172, 232-243: the frame of the table of get_perturber_state; CartesianCoordinates.empty() has the default
   frame of coordinates/cartesian.py:59 *)
Definition perturber_frame (n : nat) (frame : string) : result string :=
  bind (spice_frame frame) (fun _ => Ok (match n with O => "unspecified" | Datatypes.S _ => frame end)).

(* ---- ray_cluster.py:20-61 initialize_use_ray ---- *)
(* values of keyword arguments: the flag of the dashboard or something else *)
Inductive rval := RBool (b : bool) | ROther (s : string).
(* a call of ray.init *)
Inductive rinit :=
| Auto (kw : list (string * rval))
| Fresh (num_cpus : option Z) (object_store : option Z) (kw : list (string * rval)).
(* what ray.init does: it connects or starts, raises ConnectionError, or raises something else *)
Inductive rres := Up | NoConnection | Fail (e : err).

(* names of the keyword arguments (ray_cluster.py:34, 46) *)
Definition kw_has (k : string) (kw : list (string * rval)) : bool := existsb (fun p => String.eqb k (fst p)) kw.
(* ray_cluster.py:34 kwargs.setdefault("include_dashboard", False) *)
Definition with_dashboard (kw : list (string * rval)) : list (string * rval) :=
  if kw_has "include_dashboard" kw then kw else kw ++ [("include_dashboard", RBool false)].

(* ray_cluster.py:20-61.  [initialized]: ray.is_initialized() at the start; [ray_init]: the answer of ray.init.
   Result: the value or the exception, whether Ray is initialised afterwards, and the calls of ray.init.  An [address] among the
   keyword arguments is given twice to the first call: TypeError.  num_cpus and object_store_bytes are parameters of the function
   and cannot be among kwargs, object_store_memory can (TypeError in the second call).  ConnectionError of the second call is shown
   as RuntimeError.  Not modelled: the log, the filter of warnings, ray.cluster_resources(). *)
Definition initialize_use_ray (initialized : bool) (ray_init : rinit -> rres) (num_cpus object_store : option Z)
  (kw : list (string * rval)) : result bool * bool * list rinit :=
  if match num_cpus with None => true | Some n => 1 <? n end then
    let kw1 := with_dashboard kw in
    if initialized then (Ok true, true, [])
    else if kw_has "address" kw1 then (Err TypeError, false, [])
    else match ray_init (Auto kw1) with
         | Up => (Ok true, true, [Auto kw1])
         | Fail e => (Err e, false, [Auto kw1])
         | NoConnection =>
             if kw_has "object_store_memory" kw1 then (Err TypeError, false, [Auto kw1])
             else let c := Fresh num_cpus object_store kw1 in
                  match ray_init c with
                  | Up => (Ok true, true, [Auto kw1; c])
                  | NoConnection => (Err RuntimeError, false, [Auto kw1; c])
                  | Fail e => (Err e, false, [Auto kw1; c])
                  end
         end
  else (Ok false, initialized, []).
