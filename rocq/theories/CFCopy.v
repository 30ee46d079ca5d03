(** Model of the copy of specifications, xoa/cf.py:683-687: [CFSpecs(self, default=False, user=False)],
    on top of CFLoad.v (same simplifications).  The content of the other specifications is validated again
    as a dictionary, which gives new lists (line 625-629). *)
From Verif Require Import CFLoad.
Open Scope string_scope.

(** [cfg._dict], line 626 *)
Definition read_sec {A} (h : lheap) (d : dict (A * addr)) : dict (A * list string) :=
  map (fun e => (fst e, (fst (snd e), rd h (snd (snd e))))) d.
Definition content (st : state) (c : cfg) : src :=
  mksrc (read_sec (st_heap st) (c_dims c)) (read_sec (st_heap st) (c_coords c)).
(** line 683 *)
Definition copy (cache : bool) (disk : string -> res src) (sp : specs) (st : state) : res (specs * state) :=
  let* r := load_cfg cache disk (to_load [RText (content st (sp_cfg sp))] None false) st in
  Ok (mkspecs (fst r) None false, snd r).
