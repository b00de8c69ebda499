(** Model of JsonExporter.cims_to_json (utility/json_exporter.py:49-75) and of the part of
    TrajectoryGenerator.__init__ that reads an importer (structure_graph/trajectory_generator.py:34-63).
    The document around the CIMs and the importer's copying of its parts (json_importer.py:37-129) are in ModelDocument. *)
From Coq Require Import DecimalString Ascii.
From Verif Require Import Base ModelStructure ModelGraph ModelCims ModelGenerator ModelSample.
Open Scope nat_scope.

(** Python's str of a non-negative int *)
Definition str_nat (n : nat) : string := NilZero.string_of_uint (Nat.to_uint n).

(** json_exporter.py:58-61: the pieces of the key; parents[k] raises IndexError past the end *)
Fixpoint key_parts (parents : list label) (comb : list nat) : result (list string) :=
  match comb with
  | [] => Ok []
  | v :: comb' =>
      match parents with
      | [] => Err IndexError
      | p :: parents' =>
          let* r := key_parts parents' comb' in
          Ok ((p ++ "=" ++ str_nat v)%string :: r)
      end
  end.
(** json_exporter.py:56-63: pieces joined by commas; the label of the variable itself when it has no parents *)
Definition comb_key (l : label) (parents : list label) (comb : list nat) : result string :=
  if length parents =? 0 then Ok l
  else let* ps := key_parts parents comb in Ok (String.concat "," ps).

(** a list of JSON records {column: value} *)
Notation records := (list (list (string * Qc))) (only parsing).

(** json_exporter.py:73 *)
Definition matrix_records (m : list (list Qc)) : list (list (string * Qc)) :=
  map (fun row => mapi (fun i v => (str_nat i, v)) row) m.

(** json_exporter.py:65-71 *)
Definition exported_cim (so : set_of_cims (list (list Qc))) (parents : list label) (comb : list nat) : result (list (list Qc)) :=
  let* cs := filter_cims_with_mask so (map (fun _ => true) parents) comb in
  if length parents =? 1 then let* x := nth_res comb 0 in nth_res cs x else nth_res cs 0.

(** json_exporter.py:55-73: the entry of one variable *)
Fixpoint export_combs (l : label) (so : set_of_cims (list (list Qc))) (parents : list label)
  (combs : list (list nat)) (acc : list (string * list (list (string * Qc)))) : result (list (string * list (list (string * Qc)))) :=
  match combs with
  | [] => Ok acc
  | comb :: r =>
      let* key := comb_key l parents comb in
      let* m := exported_cim so parents comb in
      export_combs l so parents r (dict_set acc key (matrix_records m))
  end.
(** json_exporter.py:49-75.  parents_of is line 54 *)
Fixpoint export_loop (str : list edge) (cims : list (label * set_of_cims (list (list Qc)))) (ls : list label)
  (acc : list (label * list (string * list (list (string * Qc))))) : result (list (label * list (string * list (list (string * Qc))))) :=
  match ls with
  | [] => Ok acc
  | l :: r =>
      let* so := dict_get cims l in
      let* e := export_combs l so (parents_of str l) (so_p_combs so) [] in
      export_loop str cims r (dict_set acc l e)
  end.
Definition cims_to_json (variables : list (label * nat)) (str : list edge) (cims : list (label * set_of_cims (list (list Qc))))
  : result (list (label * list (string * list (list (string * Qc))))) := export_loop str cims (map fst variables) [].

(** a decimal digit.  Python's \d also matches non-ASCII digits; strings are bytes here. *)
Definition digit_value (c : ascii) : option nat :=
  let n := nat_of_ascii c in if (48 <=? n) && (n <=? 57) then Some (n - 48) else None.
(** np.array(re.findall(r"=(\d)", s)).astype("int"): trajectory_generator.py:53 *)
Fixpoint find_digits (s : string) : list nat :=
  match s with
  | EmptyString => []
  | String a r =>
      if Ascii.eqb a "="%char then
        match r with
        | EmptyString => []
        | String c r' => match digit_value c with
                         | Some d => d :: find_digits r'
                         | None => find_digits r
                         end
        end
      else find_digits r
  end.

(** pd.DataFrame(records).to_numpy(): the columns in order of first appearance; a missing cell would be NaN,
    the model answers KeyError.  trajectory_generator.py:54 *)
Definition record_columns (rs : list (list (string * Qc))) : list string :=
  fold_left (fun cols k => if lmem k cols then cols else cols ++ [k]) (flat_map (map fst) rs) [].
Definition records_matrix (rs : list (list (string * Qc))) : result (list (list Qc)) :=
  res_map (fun r => res_map (dict_get r) (record_columns rs)) rs.

(** trajectory_generator.py:49-62 *)
Definition load_combs (entry : list (string * list (list (string * Qc)))) : result (set_of_cims (list (list Qc))) :=
  let* ms := res_map (fun kr => records_matrix (snd kr)) entry in
  Ok (MkSetOfCims (map (fun kr => find_digits (fst kr)) entry) ms).
Fixpoint load_cims (sampled : list (label * list (string * list (list (string * Qc))))) (acc : list (label * set_of_cims (list (list Qc))))
  : result (list (label * set_of_cims (list (list Qc)))) :=
  match sampled with
  | [] => Ok acc
  | (v, entry) :: r => let* so := load_combs entry in load_cims r (dict_set acc v so)
  end.
(** trajectory_generator.py:34-63 with an importer.  A structure without edges is imported from the JSON list []
    as a frame without columns, so that _df_structure["To"] raises KeyError as soon as there is a variable. *)
Definition load_trajgen (variables : list (label * nat)) (str : list edge)
  (sampled : list (label * list (string * list (list (string * Qc))))) : result trajgen :=
  match str, variables with
  | [], _ :: _ => Err KeyError
  | _, _ => let* cs := load_cims sampled [] in Ok (new_trajgen variables str cs)
  end.
