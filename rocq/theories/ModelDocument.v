(** Model of the whole JSON document: JsonExporter.add_trajectory / out_file (utility/json_exporter.py:21-47,
    utility/abstract_exporter.py:18-33) and JsonImporter (utility/json_importer.py:37-188) from the decoded document
    on.  The text layer (json.dump, json.load, open) is in ModelFiles. *)
From Verif Require Import Base ModelStructure ModelGraph ModelCims ModelData ModelGenerator ModelSample ModelExport.
Open Scope nat_scope.

(** a decoded JSON value; objects keep the order of their keys, as Python dicts do *)
Inductive json := JNull | JBool (b : bool) | JNum (q : Qc) | JStr (s : string) | JArr (l : list json) | JObj (l : list (string * json)).

(** ** writing *)
(** json.loads(df.to_json(orient="records")): one object per row, the columns in order, NaN as null *)
Definition json_cell (c : option Qc) : json := match c with Some q => JNum q | None => JNull end.
Definition frame_records (f : frame) : json :=
  JArr (map (fun i => JObj (map (fun nc => (fst nc, json_cell (match nth_error (snd nc) i with Some c => c | None => None end))) (fr_cols f)))
            (seq 0 (length (fr_index f)))).
(** network_generator.py:125-130: frames with the columns From, To and Name, Value *)
Definition edge_records (es : list edge) : json := JArr (map (fun e => JObj [("From", JStr (fst e)); ("To", JStr (snd e))]) es).
Definition variable_records (vs : list (label * nat)) : json :=
  JArr (map (fun v => JObj [("Name", JStr (fst v)); ("Value", JNum (Qc_nat (snd v)))]) vs).
Definition record_json (r : list (string * Qc)) : json := JObj (map (fun kv => (fst kv, JNum (snd kv))) r).
Definition cims_json (cs : list (label * list (string * list (list (string * Qc))))) : json :=
  JObj (map (fun ve => (fst ve, JObj (map (fun kr => (fst kr, JArr (map record_json (snd kr)))) (snd ve)))) cs).

(** json_exporter.py:21-25, abstract_exporter.py:18-33 *)
Record exporter := MkExporter {
  ex_variables : list (label * nat); ex_str : list edge; ex_cims : list (label * set_of_cims (list (list Qc)));
  ex_trajectories : list frame }.
Definition new_exporter vs es cs : exporter := MkExporter vs es cs [].
Definition add_trajectory (ex : exporter) (f : frame) : exporter :=
  MkExporter (ex_variables ex) (ex_str ex) (ex_cims ex) (ex_trajectories ex ++ [f]).
(** json_exporter.py:27-46: the tree that is dumped *)
Definition out_document (ex : exporter) : result json :=
  let* cs := cims_to_json (ex_variables ex) (ex_str ex) (ex_cims ex) in
  Ok (JArr [JObj [("dyn.str", edge_records (ex_str ex)); ("variables", variable_records (ex_variables ex));
                  ("dyn.cims", cims_json cs); ("samples", JArr (map frame_records (ex_trajectories ex)))]]).

(** ** reading *)
(** json_importer.py:103-115 *)
Definition read_json_file (j : json) : list json := match j with JArr l => l | _ => [j] end.
(** raw_data[indx][key]; indexing something else than a dict with a string is a TypeError *)
Definition get_key (raw : list json) (indx : Z) (key : label) : result json :=
  let* d := py_get raw indx in
  match d with
  | JObj l => dict_get l key
  | _ => Err TypeError
  end.

(** pd.DataFrame(list of dicts): columns in the order of their first appearance, rows numbered from 0, a missing key is NaN.
    Simplification: a list of something else, which pandas would turn into a frame with numbered columns, is a ValueError. *)
Fixpoint as_records (l : list json) : result (list (list (string * json))) :=
  match l with
  | [] => Ok []
  | JObj r :: l' => let* rs := as_records l' in Ok (r :: rs)
  | _ :: _ => Err ValueError
  end.
Definition json_records (j : json) : result (list (list (string * json))) :=
  match j with JArr l => as_records l | _ => Err ValueError end.
Definition json_columns (rs : list (list (string * json))) : list string :=
  fold_left (fun cols k => if lmem k cols then cols else cols ++ [k]) (flat_map (map fst) rs) [].
(** a cell of a numeric frame.  Simplification: any other content is a ValueError. *)
Definition number_cell (r : list (string * json)) (k : string) : result (option Qc) :=
  match dict_get r k with
  | Ok (JNum q) => Ok (Some q)
  | Ok JNull | Err _ => Ok None
  | Ok _ => Err ValueError
  end.
(** json_importer.py:130-147: the frame of one trajectory *)
Definition json_frame (j : json) : result frame :=
  let* rs := json_records j in
  let* cols := res_map (fun k => let* c := res_map (fun r => number_cell r k) rs in Ok (k, c)) (json_columns rs) in
  Ok (MkFrame (map Z.of_nat (seq 0 (length rs))) cols).
Definition json_samples (j : json) : result (list frame) :=
  match j with JArr l => res_map json_frame l | _ => Err ValueError end.

(** json_importer.py:80-101, 116-128: the frames of the structure and of the variables.  SamplePath reads their first two
    columns by position (sample_path.py:63-72), TrajectoryGenerator by name.  Simplification: a cell of the
    wrong kind is a ValueError. *)
Definition string_at (r : list (string * json)) (k : string) : result string :=
  match dict_get r k with Ok (JStr s) => Ok s | _ => Err ValueError end.
Definition count_at (r : list (string * json)) (k : string) : result nat :=
  match dict_get r k with Ok (JNum q) => Ok (Z.to_nat (Qc_trunc q)) | _ => Err ValueError end.
Definition json_edges (j : json) : result (list edge) :=
  let* rs := json_records j in
  match json_columns rs with
  | a :: b :: _ => res_map (fun r => let* x := string_at r a in let* y := string_at r b in Ok (x, y)) rs
  | [] => Ok []
  | _ => Err ValueError
  end.
Definition json_variables (j : json) : result vframe :=
  let* rs := json_records j in
  match json_columns rs with
  | a :: b :: _ =>
      let* vs := res_map (fun r => let* x := string_at r a in let* y := count_at r b in Ok (x, y)) rs in
      Ok (MkVframe (mapi (fun i v => (i, fst v, snd v)) vs))
  | [] => Ok (MkVframe [])
  | _ => Err ValueError
  end.

(** json_importer.py:37-71: the importer after import_data, and its _cims *)
Definition json_document_import (doc : json) (samples_label structure_label variables_label time_key : label) (cims_label : option label)
  (indx : Z) : result (importer * option json) :=
  let raw := read_json_file doc in
  let* js := get_key raw indx samples_label in
  let* fs := json_samples js in
  let* f0 := nth_res fs 0 in
  let* sorter := json_build_sorter time_key f0 in
  let* im := compute_row_delta_in_all_samples_frames (MkImporter fs CEmptyList None None (Some sorter)) fs in
  let* je := get_key raw indx structure_label in
  let* es := json_edges je in
  let* jv := get_key raw indx variables_label in
  let* v := json_variables jv in
  let im' := MkImporter (map empty_frame_like fs) (im_concat im) (Some v) (Some es) (Some sorter) in
  match cims_label with
  | None => Ok (im', None)
  | Some k => let* c := get_key raw indx k in Ok (im', Some c)
  end.

(** the nested dictionary of CIMs as iterated by trajectory_generator.py:49-54 and json_importer.py:180-185 *)
Definition number_at (kv : string * json) : result (string * Qc) :=
  match snd kv with JNum q => Ok (fst kv, q) | _ => Err ValueError end.
Definition cim_records (j : json) : result (list (list (string * Qc))) :=
  let* rs := json_records j in res_map (res_map number_at) rs.
Definition read_cims (j : json) : result (list (label * list (string * list (list (string * Qc))))) :=
  match j with
  | JObj l => res_map (fun ve => match snd ve with
                                 | JObj e => let* e' := res_map (fun kr => let* m := cim_records (snd kr) in Ok (fst kr, m)) e in Ok (fst ve, e')
                                 | _ => Err AttributeError
                                 end) l
  | _ => Err AttributeError                                  (* .keys() of something else *)
  end.

(** json_importer.py:166-186 *)
Definition import_sampled_cims (raw : list json) (indx : Z) (cims_key : label) : result (list (label * list (list (list Qc)))) :=
  let* j := get_key raw indx cims_key in
  let* cs := read_cims j in
  res_map (fun ve => let* ms := res_map (fun kr => records_matrix (snd kr)) (snd ve) in Ok (fst ve, ms)) cs.

(** trajectory_generator.py:29-65 with an importer: variables, structure and CIMs are the importer's *)
Definition trajgen_of_importer (ic : importer * option json) : result trajgen :=
  match im_variables (fst ic), im_structure (fst ic), snd ic with
  | Some v, Some es, Some j =>
      let* cs := read_cims j in
      load_trajgen (combine (v_names v) (v_values v)) es cs
  | _, _, _ => Err AttributeError
  end.
