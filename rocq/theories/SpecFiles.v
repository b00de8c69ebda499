(** Specification vocabulary for the text of files and for interrupted writing (C78, C79). *)
From Coq Require Import Ascii.
From Verif Require Import Base ModelStructure ModelGraph ModelCims ModelData ModelGenerator ModelSample ModelExport ModelDocument ModelEstimators ModelFiles.
Open Scope nat_scope.

(** ** The grammar of JSON texts (RFC 8259, characters below 256) *)
Definition code (c : ascii) : nat := nat_of_ascii c.
Definition blank (c : ascii) : Prop := code c = 32 \/ code c = 9 \/ code c = 10 \/ code c = 13.
Definition blanks (w : list ascii) : Prop := Forall blank w.
Definition digit (c : ascii) : Prop := 48 <= code c <= 57.
(** a number: optional minus; 0, or digits not starting with 0; optional fraction; optional exponent *)
Definition int_text (t : list ascii) : Prop := t = chars "0" \/ exists d ds, t = d :: ds /\ digit d /\ code d <> 48 /\ Forall digit ds.
Definition frac_text (t : list ascii) : Prop := t = [] \/ exists ds, t = "."%char :: ds /\ ds <> [] /\ Forall digit ds.
Definition exp_text (t : list ascii) : Prop :=
  t = [] \/ exists e sg ds, t = e :: sg ++ ds /\ (e = "e"%char \/ e = "E"%char)
                            /\ (sg = [] \/ sg = chars "-" \/ sg = chars "+") /\ ds <> [] /\ Forall digit ds.
Definition number_token (t : list ascii) : Prop :=
  exists sg i f e, t = sg ++ i ++ f ++ e /\ (sg = [] \/ sg = chars "-") /\ int_text i /\ frac_text f /\ exp_text e.
(** one character of a string *)
Definition hex (c : ascii) (n : nat) : Prop :=
  n < 16 /\ (c = nth n (chars "0123456789abcdef") "?"%char \/ c = nth n (chars "0123456789ABCDEF") "?"%char).
Inductive char_text : ascii -> list ascii -> Prop :=
| ct_plain c : 32 <= code c -> code c <> 34 -> code c <> 92 -> char_text c [c]
| ct_short e c : In (e, code c) [(quote, 34); (backslash, 92); ("/"%char, 47); ("b"%char, 8); ("f"%char, 12); ("n"%char, 10); ("r"%char, 13); ("t"%char, 9)] ->
    char_text c [backslash; e]
| ct_unicode a b h l c : hex a 0 -> hex b 0 -> hex h (code c / 16) -> hex l (code c mod 16) -> char_text c [backslash; "u"%char; a; b; h; l].
Inductive string_text : list ascii -> list ascii -> Prop :=
| st_nil : string_text [] []
| st_cons c t cs ts : char_text c t -> string_text cs ts -> string_text (c :: cs) (t ++ ts).
(** a later pair with the same key replaces the value of the earlier one *)
Inductive value_text (nf : number_format) : json -> list ascii -> Prop :=
| vt_null : value_text nf JNull (chars "null")
| vt_true : value_text nf (JBool true) (chars "true")
| vt_false : value_text nf (JBool false) (chars "false")
| vt_num q t : number_token t -> nf_value nf t = Some q -> value_text nf (JNum q) t
| vt_str s t : string_text (chars s) t -> value_text nf (JStr s) (quote :: t ++ [quote])
| vt_arr0 w : blanks w -> value_text nf (JArr []) ("["%char :: w ++ ["]"%char])
| vt_arr l t : elements_text nf l t -> value_text nf (JArr l) ("["%char :: t ++ ["]"%char])
| vt_obj0 w : blanks w -> value_text nf (JObj []) ("{"%char :: w ++ ["}"%char])
| vt_obj l t : members_text nf l t -> value_text nf (JObj (dict_of l)) ("{"%char :: t ++ ["}"%char])
with elements_text (nf : number_format) : list json -> list ascii -> Prop :=
| et_one w1 v t w2 : blanks w1 -> value_text nf v t -> blanks w2 -> elements_text nf [v] (w1 ++ t ++ w2)
| et_more w1 v t w2 vs ts : blanks w1 -> value_text nf v t -> blanks w2 -> elements_text nf vs ts ->
    elements_text nf (v :: vs) (w1 ++ t ++ w2 ++ ","%char :: ts)
with members_text (nf : number_format) : list (string * json) -> list ascii -> Prop :=
| mt_one w1 k kt w2 w3 v t w4 : blanks w1 -> string_text (chars k) kt -> blanks w2 -> blanks w3 -> value_text nf v t -> blanks w4 ->
    members_text nf [(k, v)] (w1 ++ quote :: kt ++ quote :: w2 ++ ":"%char :: w3 ++ t ++ w4)
| mt_more w1 k kt w2 w3 v t w4 ps ts : blanks w1 -> string_text (chars k) kt -> blanks w2 -> blanks w3 -> value_text nf v t -> blanks w4 ->
    members_text nf ps ts ->
    members_text nf ((k, v) :: ps) (w1 ++ quote :: kt ++ quote :: w2 ++ ":"%char :: w3 ++ t ++ w4 ++ ","%char :: ts).
(** a JSON text: a value with blanks around it *)
Definition json_text (nf : number_format) (j : json) (s : list ascii) : Prop :=
  exists w1 t w2, blanks w1 /\ value_text nf j t /\ blanks w2 /\ s = w1 ++ t ++ w2.

(** ** Values that have a faithful text *)
(** what is printed for [q] is a number and is read as [q] again (Python floats: repr and float) *)
Definition faithful (nf : number_format) (q : Qc) : Prop := number_token (nf_text nf q) /\ nf_value nf (nf_text nf q) = Some q.
(** every number in it is faithful, and no object repeats a key (a Python dict cannot) *)
Inductive printable (nf : number_format) : json -> Prop :=
| pr_null : printable nf JNull
| pr_bool b : printable nf (JBool b)
| pr_num q : faithful nf q -> printable nf (JNum q)
| pr_str s : printable nf (JStr s)
| pr_arr l : Forall (printable nf) l -> printable nf (JArr l)
| pr_obj l : NoDup (map fst l) -> Forall (fun kv => printable nf (snd kv)) l -> printable nf (JObj l).

(** the numbers that occur in a value *)
Fixpoint json_numbers (j : json) : list Qc :=
  match j with
  | JNum q => [q]
  | JArr l => flat_map json_numbers l
  | JObj l => flat_map (fun kv => json_numbers (snd kv)) l
  | _ => []
  end.
(** arrays and objects; both kinds of file the library writes are one *)
Definition structured (j : json) : Prop := match j with JArr _ | JObj _ => True | _ => False end.
(** an unfinished text *)
Definition cut_short (p t : list ascii) : Prop := exists q, q <> [] /\ t = p ++ q.
(** networkx 2.5 node_link_graph, as far as nodes and edges are concerned *)
Definition read_node_link (j : json) : option node_link :=
  match j with
  | JObj l =>
      match dict_get l "nodes", dict_get l "links" with
      | Ok (JArr ns), Ok (JArr es) =>
          match res_map (fun n => match n with JObj d => string_at d "id" | _ => Err TypeError end) ns,
                res_map (fun e => match e with JObj d => let* a := string_at d "source" in let* b := string_at d "target" in Ok (a, b) | _ => Err TypeError end) es with
          | Ok ns', Ok es' => Some (MkNodeLink ns' es')
          | _, _ => None
          end
      | _, _ => None
      end
  | _ => None
  end.

(** ** Programs that write files *)
Inductive file_op :=
| OpOutFile (ex : exporter) (filename : string)
| OpSaveResults (g : digraph) (file_path : string).
Definition op_run (nf : number_format) (cwd : string) (op : file_op) (fs : string -> option (list ascii)) :=
  match op with
  | OpOutFile ex name => out_file nf cwd ex name fs
  | OpSaveResults g p => save_results_file nf g p fs
  end.
(** the document an operation is to write, and where; nothing if it raises *)
Definition op_target (cwd : string) (op : file_op) : option (string * json) :=
  match op with
  | OpOutFile ex name => match out_document ex with Ok d => Some ((cwd ++ "/" ++ name)%string, d) | Err _ => None end
  | OpSaveResults g p => Some (p, node_link_json (save_results g))
  end.
(** the states in which a program that performs [ops] one after the other can be interrupted (exceptions are caught) *)
Fixpoint history_states (nf : number_format) (cwd : string) (ops : list file_op) (fs : string -> option (list ascii))
  : list (string -> option (list ascii)) :=
  match ops with
  | [] => [fs]
  | op :: r => let sts := snd (op_run nf cwd op fs) in sts ++ history_states nf cwd r (last sts fs)
  end.
(** what a file holds after [ops] have been completed: the text of the last document written to it *)
Fixpoint last_document (cwd : string) (ops : list file_op) (p : string) : option json :=
  match ops with
  | [] => None
  | op :: r => match last_document cwd r p with
               | Some d => Some d
               | None => match op_target cwd op with
                         | Some (q, d) => if String.eqb q p then Some d else None
                         | None => None
                         end
               end
  end.
