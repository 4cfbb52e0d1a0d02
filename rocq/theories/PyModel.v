(** * Model of matplotlibcpp.hpp, as far as the library calls it.

    include/DynamicObstacleAvoidance/Utils/Plotting/matplotlibcpp.hpp hands every drawing call to Python.  The objects
    it creates are modelled with the references the C++ code holds on them; what Python does when it is called is a
    parameter ([world]).  Not modelled: running out of memory, the references the interpreter object holds for the
    whole run (lines 118-183), Py_Finalize at exit (267-269), references that Python itself keeps. *)
From Coq Require Import ZArith List Bool Arith String Ascii.
From Verif Require Import Num Eigen Outcome Types PlotModel.
Import ListNotations.

(** objects the C++ code creates: numbers, texts, arrays, tuples and lists ([None]: a slot not yet filled, or NULL), and
    whatever a Python function returned *)
Inductive pyobj (F : Type) :=
| PFloat (x : F)
| PStr (s : string)
| PArray (xs : list F)
| PSeq (items : list (option nat))
| PResult.
Arguments PFloat {F}. Arguments PStr {F}. Arguments PArray {F}. Arguments PSeq {F}. Arguments PResult {F}.

(** what a Python function gets to see *)
Inductive pyval (F : Type) :=
| VFloat (x : F)
| VStr (s : string)
| VArray (xs : list F)
| VSeq (items : list (pyval F))
| VResult.
Arguments VFloat {F}. Arguments VStr {F}. Arguments VArray {F}. Arguments VSeq {F}. Arguments VResult {F}.
Inductive pycall (F : Type) := PyCall (function : string) (args : list (pyval F)).
Arguments PyCall {F}.

(** what Python does: can numpy and the modules be imported, does a module have an attribute and is it a Python function,
    does a call return (given the earlier calls, and whether the error indicator is set), has a figure a number *)
Record world (F : Type) := World {
  w_numpy : bool;
  w_module : string -> bool;
  w_function : string -> string -> option bool;
  w_call : list (pycall F) -> bool -> pycall F -> bool;
  w_number : list (pycall F) -> bool
}.
Arguments w_numpy {F}. Arguments w_module {F}. Arguments w_function {F}. Arguments w_call {F}. Arguments w_number {F}.

(** the state of the Python side: objects with the number of references held by the C++ code, Py_Initialize called, the
    numpy table loaded, the singleton constructed, error indicator, calls made so far *)
Record py (F : Type) := Py {
  py_objs : list (pyobj F * nat);
  py_init : bool;
  py_numpy : bool;
  py_ready : bool;
  py_error : bool;
  py_calls : list (pycall F)
}.
Arguments Py {F}. Arguments py_objs {F}. Arguments py_init {F}. Arguments py_numpy {F}. Arguments py_ready {F}.
Arguments py_error {F}. Arguments py_calls {F}.

(** how a function can end: it returns, throws std::runtime_error, or the program crashes (undefined behaviour or a
    failed assertion) *)
Inductive crash :=
| NotInitialised     (* the C API used before Py_Initialize *)
| NullItem           (* a function called with a tuple that contains NULL *)
| ReleasedObject     (* an object used after its last reference was given up *)
| BadSlot            (* PyTuple_SetItem / PyList_SetItem outside, or on something else *)
| NoNumpy            (* the numpy table used although numpy could not be imported *)
| AssertionFailed.
Inductive fate (F A : Type) :=
| Returns (a : A) (s : py F)
| Throws (message : string) (s : py F)
| Crashes (why : crash).
Arguments Returns {F A}. Arguments Throws {F A}. Arguments Crashes {F A}.

Definition act (F A : Type) : Type := py F -> fate F A.
Definition ret {F A} (a : A) : act F A := fun s => Returns a s.
Definition andthen {F A B} (m : act F A) (k : A -> act F B) : act F B := fun s =>
  match m s with Returns a s' => k a s' | Throws e s' => Throws e s' | Crashes w => Crashes w end.
Notation "'let!' x := m 'in' k" := (andthen m (fun x => k)) (at level 200, x pattern, m at level 100, k at level 200, right associativity).
Definition throw {F A} (message : string) : act F A := fun s => Throws message s.

(** the bytes that c_str() shows: those before the first NUL *)
Fixpoint c_str (s : string) : string :=
  match s with
  | EmptyString => EmptyString
  | String c r => if Nat.eqb (nat_of_ascii c) 0 then EmptyString else String c (c_str r)
  end.
(** the bytes that PyUnicode_FromString accepts (it returns NULL and sets the error indicator for others): UTF-8 *)
Definition between (a b c : nat) : bool := (a <=? b)%nat && (b <=? c)%nat.
Definition cont (b : nat) : bool := between 128 b 191.
Definition lead3 (a b : nat) : bool :=
  (Nat.eqb a 224 && between 160 b 191) || (between 225 a 236 && cont b) || (Nat.eqb a 237 && between 128 b 159) || (between 238 a 239 && cont b).
Definition lead4 (a b : nat) : bool :=
  (Nat.eqb a 240 && between 144 b 191) || (between 241 a 243 && cont b) || (Nat.eqb a 244 && between 128 b 143).
Fixpoint utf8 (l : list nat) : bool :=
  match l with
  | [] => true
  | a :: r =>
    if (a <? 128)%nat then utf8 r
    else match r with
      | [] => false
      | b :: r1 =>
        if between 194 a 223 && cont b then utf8 r1
        else match r1 with
          | [] => false
          | c :: r2 =>
            if lead3 a b && cont c then utf8 r2
            else match r2 with
              | [] => false
              | d :: r3 => if lead4 a b && cont c && cont d then utf8 r3 else false
              end
          end
      end
  end.
Fixpoint bytes (s : string) : list nat := match s with EmptyString => [] | String c r => nat_of_ascii c :: bytes r end.

Section Api.
Context {F : Type} {N : Num F}.

Definition with_objs (s : py F) (objs : list (pyobj F * nat)) : py F := Py objs (py_init s) (py_numpy s) (py_ready s) (py_error s) (py_calls s).
Definition with_error (s : py F) (e : bool) : py F := Py (py_objs s) (py_init s) (py_numpy s) (py_ready s) e (py_calls s).

(** a new object with one reference *)
Definition fresh (o : pyobj F) : act F nat := fun s =>
  if py_init s then Returns (List.length (py_objs s)) (with_objs s (py_objs s ++ [(o, 1)])) else Crashes NotInitialised.
(** PyFloat_FromDouble, PyTuple_New(n), PyList_New(n) *)
Definition new_float (x : F) : act F nat := fresh (PFloat x).
Definition new_seq (n : nat) : act F nat := fresh (PSeq (repeat None n)).
(** PyString_FromString(s.c_str()), which is PyUnicode_FromString (lines 22-26) *)
Definition new_string (t : string) : act F (option nat) :=
  if utf8 (bytes (c_str t)) then let! l := fresh (PStr (c_str t)) in ret (Some l)
  else fun s => if py_init s then Returns None (with_error s true) else Crashes NotInitialised.

(** the object at [l], if the C++ code may still use it *)
Definition object_at (objs : list (pyobj F * nat)) (l : nat) : option (pyobj F) :=
  match nth_error objs l with Some (o, S _) => Some o | _ => None end.

(** PyTuple_SetItem, PyList_SetItem: the reference to the item goes over to the sequence *)
Definition set_item (t i : nat) (item : option nat) : act F unit := fun s =>
  match nth_error (py_objs s) t with
  | Some (PSeq items, S c) =>
    match nth_error items i with
    | Some None => Returns tt (with_objs s (upd t (PSeq (upd i item items), S c) (py_objs s)))
    | _ => Crashes BadSlot
    end
  | Some (_, O) => Crashes ReleasedObject
  | _ => Crashes BadSlot
  end.

(** Py_DECREF: with its last reference an object gives up those to its items *)
Fixpoint give_up (depth : nat) (l : nat) (objs : list (pyobj F * nat)) : option (list (pyobj F * nat)) :=
  match depth with
  | O => None
  | S depth' =>
    match nth_error objs l with
    | Some (o, S c) =>
      let objs' := upd l (o, c) objs in
      match c, o with
      | O, PSeq items =>
        fold_left (fun acc i => match acc, i with Some os, Some j => give_up depth' j os | _, None => acc | None, _ => None end) items (Some objs')
      | _, _ => Some objs'
      end
    | _ => None
    end
  end.
Definition decref (l : nat) : act F unit := fun s =>
  match give_up (S (List.length (py_objs s))) l (py_objs s) with
  | Some objs => Returns tt (with_objs s objs)
  | None => Crashes ReleasedObject
  end.

(** what Python sees of the object at [l]; [None]: a NULL or released object is in it *)
Fixpoint value (depth : nat) (objs : list (pyobj F * nat)) (l : nat) : option (pyval F) :=
  match depth with
  | O => None
  | S depth' =>
    match object_at objs l with
    | Some (PFloat x) => Some (VFloat x)
    | Some (PStr t) => Some (VStr t)
    | Some (PArray xs) => Some (VArray xs)
    | Some PResult => Some VResult
    | Some (PSeq items) =>
      option_map VSeq (fold_right (fun i acc =>
        match i, acc with Some j, Some vs => option_map (fun v => v :: vs) (value depth' objs j) | _, _ => None end) (Some []) items)
    | None => None
    end
  end.

Variable w : world F.

(** lines 148-183, 185-222 and 224-260: the functions looked up, those that must exist and those that must be Python
    functions (hist, scatter, xticks and yticks are looked up but not checked; "savefig" comes from pylab) *)
Definition required : list (string * string) :=
  (map (fun f => ("matplotlib.pyplot", f)%string)
     ["show"; "close"; "draw"; "pause"; "figure"; "fignum_exists"; "plot"; "quiver"; "semilogx"; "semilogy"; "loglog"; "fill"; "fill_between";
      "subplot"; "legend"; "ylim"; "title"; "axis"; "xlabel"; "ylabel"; "grid"; "xlim"; "ion"; "ginput"; "clf"; "annotate"; "errorbar";
      "tight_layout"; "stem"; "xkcd"; "text"; "suptitle"; "bar"; "subplots_adjust"]%string ++ [("pylab", "savefig")%string])%list.

(** _interpreter::get(), lines 80-83 and 104-265: the singleton is constructed at the first call; if its constructor
    throws, the next call tries again.  The result of import_numpy() (line 116) is not looked at.  No backend is chosen (the library
    never calls backend()).  Line 128 prints and clears the error. *)
Definition interpreter : act F unit := fun s =>
  if py_ready s then Returns tt s
  else
    let s0 := Py (py_objs s) true (py_numpy s || w_numpy w) false (py_error s || negb (w_numpy w)) (py_calls s) in
    if negb (w_module w "matplotlib") then Throws "Error loading module matplotlib!" (with_error s0 false)
    else if negb (w_module w "matplotlib.pyplot") then Throws "Error loading module matplotlib.pyplot!" (with_error s0 true)
    else if negb (w_module w "matplotlib.cm") then Throws "Error loading module matplotlib.cm!" (with_error s0 true)
    else if negb (w_module w "pylab") then Throws "Error loading module pylab!" (with_error s0 true)
    else if existsb (fun f => match w_function w (fst f) (snd f) with None => true | Some _ => false end) required
         then Throws "Couldn't find required function!" (with_error s0 true)
    else if existsb (fun f => match w_function w (fst f) (snd f) with Some true => false | _ => true end) required
         then Throws "Python object is unexpectedly not a PyFunction." s0
    else Returns tt (Py (py_objs s0) true (py_numpy s0) true (py_error s0) (py_calls s0)).

(** lines 325-342 get_array of doubles: a view of the vector's memory *)
Definition get_array (xs : list F) : act F nat :=
  let! _ := interpreter in
  fun s => if py_numpy s then fresh (PArray xs) s else Crashes NoNumpy.

(** PyObject_CallObject(_interpreter::get().s_python_function_..., args): a new reference, or NULL and an error.  What a
    call does when the error indicator is already set is up to Python; when it returns, the indicator is clear. *)
Definition finish_call (f : string) (args : list (pyval F)) : act F (option nat) := fun s =>
  let c := PyCall f args in
  let s' := Py (py_objs s) (py_init s) (py_numpy s) (py_ready s) (py_error s) (py_calls s ++ [c]) in
  if w_call w (py_calls s) (py_error s) c
  then Returns (Some (List.length (py_objs s))) (Py (py_objs s ++ [(PResult, 1)]) (py_init s) (py_numpy s) (py_ready s) false (py_calls s ++ [c]))
  else Returns None (with_error s' true).
Definition call (f : string) (args : nat) : act F (option nat) :=
  let! _ := interpreter in
  fun s => match value 3 (py_objs s) args with
           | Some (VSeq vs) => finish_call f vs s
           | _ => Crashes NullItem
           end.
(** ... with s_python_empty_tuple *)
Definition call_empty (f : string) : act F (option nat) := let! _ := interpreter in finish_call f [].

(** lines 730-751 plot (reached from 1698-1700 and, for vectors, directly): a failure is only reported by the result *)
Definition plt_plot (xs ys : list F) (format : string) : act F bool :=
  if negb (Nat.eqb (List.length xs) (List.length ys)) then (fun _ => Crashes AssertionFailed)
  else
    let! xa := get_array xs in
    let! ya := get_array ys in
    let! f := new_string format in
    let! args := new_seq 3 in
    let! _ := set_item args 0 (Some xa) in
    let! _ := set_item args 1 (Some ya) in
    let! _ := set_item args 2 f in
    let! r := call "plot" args in
    let! _ := decref args in
    match r with
    | Some l => let! _ := decref l in ret true
    | None => ret false
    end.

(** the common end of the functions below: if(!res) throw ...; Py_DECREF(args); Py_DECREF(res) *)
Definition conclude (name : string) (args : nat) (r : option nat) : act F unit :=
  match r with
  | None => throw ("Call to " ++ name ++ "() failed.")%string
  | Some l => let! _ := decref args in decref l
  end.

(** lines 1056-1069 text *)
Definition plt_text (x y : F) (t : string) : act F unit :=
  let! args := new_seq 3 in
  let! a := new_float x in
  let! _ := set_item args 0 (Some a) in
  let! b := new_float y in
  let! _ := set_item args 1 (Some b) in
  let! c := new_string t in
  let! _ := set_item args 2 c in
  let! r := call "text" args in
  conclude "text" args r.

(** lines 1072-1099 figure(), without a number *)
Definition plt_figure : act F unit :=
  let! r := call_empty "figure" in
  match r with
  | None => throw "Call to figure() failed."
  | Some l =>
    fun s => if w_number w (py_calls s)
             then (let! n := fresh PResult in let! _ := decref n in decref l) s
             else Throws "Could not get number attribute of figure object" (with_error s true)
  end.

(** lines 1146-1160 ylim, 1163-1177 xlim: one argument, the list of both limits *)
Definition plt_lim (name : string) (left right : Z) : act F unit :=
  let! l := new_seq 2 in
  let! a := new_float (nofZ left) in
  let! _ := set_item l 0 (Some a) in
  let! b := new_float (nofZ right) in
  let! _ := set_item l 1 (Some b) in
  let! args := new_seq 1 in
  let! _ := set_item args 0 (Some l) in
  let! r := call name args in
  conclude name args r.

(** lines 1310-1323 subplot: the three numbers as floats *)
Definition plt_subplot (rows cols index : Z) : act F unit :=
  let! args := new_seq 3 in
  let! a := new_float (nofZ rows) in
  let! _ := set_item args 0 (Some a) in
  let! b := new_float (nofZ cols) in
  let! _ := set_item args 1 (Some b) in
  let! c := new_float (nofZ index) in
  let! _ := set_item args 2 (Some c) in
  let! r := call "subplot" args in
  conclude "subplot" args r.

(** lines 1429-1450 show(true), 1452-1461 close *)
Definition plt_plain (name : string) : act F unit :=
  let! r := call_empty name in
  match r with None => throw ("Call to " ++ name ++ "() failed.")%string | Some l => decref l end.

(** lines 1502-1514 save *)
Definition plt_save (filename : string) : act F unit :=
  let! f := new_string filename in
  let! args := new_seq 1 in
  let! _ := set_item args 0 f in
  let! r := call "savefig" args in
  conclude "save" args r.

(** one drawing command; the library looks at no result of plot *)
Definition perform (c : cmd F) : act F unit :=
  match c with
  | Figure => plt_figure
  | Subplot r k i => plt_subplot r k i
  | Plot xs ys f => let! _ := plt_plot xs ys f in ret tt
  | Text x y t => plt_text x y t
  | Xlim a b => plt_lim "xlim" a b
  | Ylim a b => plt_lim "ylim" a b
  | Save p => plt_save p
  | Show => plt_plain "show"
  | Close => plt_plain "close"
  end.
Fixpoint perform_all (cs : list (cmd F)) : act F unit :=
  match cs with
  | [] => ret tt
  | c :: rest => let! _ := perform c in perform_all rest
  end.

(** a program that draws several times, and goes on after an exception: what each drawing ended with *)
Fixpoint session (ds : list (list (cmd F))) (s : py F) : fate F (list (option string)) :=
  match ds with
  | [] => Returns [] s
  | d :: rest =>
    match perform_all d s with
    | Crashes why => Crashes why
    | Returns _ s' => match session rest s' with Returns os s2 => Returns (None :: os) s2 | Throws e s2 => Throws e s2 | Crashes why => Crashes why end
    | Throws m s' => match session rest s' with Returns os s2 => Returns (Some m :: os) s2 | Throws e s2 => Throws e s2 | Crashes why => Crashes why end
    end
  end.

(** when the program starts *)
Definition asleep : py F := Py [] false false false false [].

End Api.
