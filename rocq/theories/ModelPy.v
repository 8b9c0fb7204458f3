(** ModelPy: which isTerminated the Python classes IntVGram and VGram use (binding/src/main/cpp). A Python IntVGram made by its
    constructor is a PyIntVGram; one that was loaded, and the object inside every VGram, is a plain vgram_core::IntVGram. The
    conversions of pybind11 are not modelled. *)
From Verif Require Import Base FloatOps ModelDict ModelCoder ModelTok Maps ModelStat ModelBuilder ModelStream ModelVGram ModelString ModelJson ModelPersist.

Section Py.
  Context (fl : fops).

  (** The dynamic class of an IntVGram object. *)
  Inductive class := ClassIntVGram | ClassPyIntVGram.
  (** int_vgram.cc:115-117 and py_int_vgram_builder.h:32-35; [signal]: PyErr_CheckSignals() == -1. *)
  Definition is_terminated (c : class) (signal : bool) : bool :=
    match c with ClassIntVGram => false | ClassPyIntVGram => signal end.
  (** Here [w_term w t] says whether PyErr_CheckSignals would return -1 at the [t]-th point where isTerminated is called. *)
  Definition heard (c : class) (w : world fl) : world fl := mkWorld (w_rand w) (fun t => is_terminated c (w_term w t)) (w_env w).

  (** A Python object of class IntVGram or VGram, with the class of the IntVGram that does the work. *)
  Inductive pyobj := PyInt (c : class) (v : vgram fl) | PyStr (c : class) (v : tvgram fl).

  (** bind_vgram.cc:44 with py_int_vgram_builder.h:22; bind_vgram.cc:55 with py_vgram_builder.h:22 and string_vgram.cc:13-15,
      where make_shared<IntVGram> makes a plain IntVGram. *)
  Definition py_int (size iter : Z) : pyobj := PyInt ClassPyIntVGram (new_vgram fl size iter).
  Definition py_str (size iter : Z) : pyobj := PyStr ClassIntVGram (new_tvgram fl size iter).
  (** py_int_vgram_builder.h:16-18 and py_vgram_builder.h:16-18: a static_cast of the object that the Loader made
      (loader.h:26-37, 45-50), which is not of the class it is cast to. This is undefined behaviour by the letter; the cast is
      taken to give the object as it is. *)
  Definition py_load_int (io : float_io (F fl)) (file : text) : outcome pyobj := v <- load_vgram fl io file ;; Ok (PyInt ClassIntVGram v).
  Definition py_load_str (io : float_io (F fl)) (file : text) : outcome pyobj := v <- load_tvgram fl io file ;; Ok (PyStr ClassIntVGram v).

  Inductive pycall := PyFit (xs : list seq) | PyTransform (xs : list seq) | PyFitTexts (xs : list text) | PyTransformTexts (xs : list text).
  Inductive pyanswer := PySelf | PyNull | PyTexts (l : list text).
  (** py_int_vgram_builder.h:24-30 and py_vgram_builder.h:30-36. A function that the class does not have
      raises an exception. [PyNull] is the nullptr that pybind11 gets; the KeyboardInterrupt that PyErr_CheckSignals leaves behind
      is not modelled. *)
  Definition py_call (w : world fl) (o : pyobj) (k : pycall) : outcome (pyanswer * pyobj) :=
    match o, k with
    | PyInt c v, PyFit xs => '(b, v') <- fit fl (heard c w) v xs ;; Ok ((if (b : bool) then PySelf else PyNull), PyInt c v')
    | PyInt c v, PyTransform xs => '(l, v') <- transform_to_string fl (heard c w) v xs ;; Ok (PyTexts l, PyInt c v')
    | PyStr c v, PyFitTexts xs => v' <- tv_fit fl true (heard c w) v xs ;; Ok (PySelf, PyStr c v')
    | PyStr c v, PyTransformTexts xs => '(l, v') <- tv_transform fl true (heard c w) v xs ;; Ok (PyTexts l, PyStr c v')
    | _, _ => Throw InvalidArg
    end.
End Py.
Arguments PyInt {fl}. Arguments PyStr {fl}.
