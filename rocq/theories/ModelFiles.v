(** Model of the text of the files and of writing and reading them: JsonExporter.out_file (utility/json_exporter.py:27-46),
    StructureEstimator.save_results (estimators/structure_estimator.py:98-107), JsonImporter.read_json_file
    (utility/json_importer.py:37-61, 103-115), with Python's json.dump and json.load as they are called there
    (default separators, ensure_ascii, strict).
    Characters are code points below 256.  How numbers are printed and read is a parameter. *)
From Coq Require Import Ascii.
From Verif Require Import Base ModelStructure ModelGraph ModelCims ModelData ModelGenerator ModelSample ModelExport ModelDocument ModelEstimators.
Open Scope nat_scope.

Notation text := (list ascii) (only parsing).
Definition chars (s : string) : list ascii := list_ascii_of_string s.
Definition quote : ascii := ascii_of_nat 34.
Definition backslash : ascii := ascii_of_nat 92.

(** how a number is printed, and what the text of a number is read as: float.__repr__, int.__repr__, float(), int().
    [nf_value] is only applied to what the scanner's regular expression has matched. *)
Record number_format := MkNumberFormat { nf_text : Qc -> list ascii; nf_value : list ascii -> option Qc }.

(** ** json.dump: CPython json/encoder.py, py_encode_basestring_ascii and _make_iterencode *)
Definition hex_digit (n : nat) : ascii := nth n (chars "0123456789abcdef") "0"%char.
Definition escape_char (c : ascii) : list ascii :=
  let n := nat_of_ascii c in
  if n =? 34 then [backslash; quote]
  else if n =? 92 then [backslash; backslash]
  else if n =? 10 then chars "\n"
  else if n =? 13 then chars "\r"
  else if n =? 9 then chars "\t"
  else if n =? 12 then chars "\f"
  else if n =? 8 then chars "\b"
  else if (32 <=? n) && (n <=? 126) then [c]
  else chars "\u00" ++ [hex_digit (n / 16); hex_digit (n mod 16)].
Definition dump_string (s : string) : list ascii := quote :: flat_map escape_char (chars s) ++ [quote].
Fixpoint join (sep : list ascii) (ts : list (list ascii)) : list ascii :=
  match ts with
  | [] => []
  | [t] => t
  | t :: r => t ++ sep ++ join sep r
  end.
Fixpoint dump_text (nf : number_format) (j : json) : list ascii :=
  match j with
  | JNull => chars "null"
  | JBool true => chars "true"
  | JBool false => chars "false"
  | JNum q => nf_text nf q
  | JStr s => dump_string s
  | JArr l => "["%char :: join (chars ", ") (map (dump_text nf) l) ++ ["]"%char]
  | JObj l => "{"%char :: join (chars ", ") (map (fun kv => dump_string (fst kv) ++ chars ": " ++ dump_text nf (snd kv)) l) ++ ["}"%char]
  end.

(** ** json.load: CPython json/decoder.py, json/scanner.py *)
(** WHITESPACE: blank, tab, newline, carriage return *)
Definition is_blank (c : ascii) : bool :=
  let n := nat_of_ascii c in (n =? 32) || (n =? 9) || (n =? 10) || (n =? 13).
Fixpoint skip_blanks (s : list ascii) : list ascii :=
  match s with
  | c :: r => if is_blank c then skip_blanks r else s
  | [] => []
  end.
(** scanstring, strict=True.  Simplification: an escaped code point above 255 is an error. *)
Definition hex_value (c : ascii) : option nat :=
  let n := nat_of_ascii c in
  if (48 <=? n) && (n <=? 57) then Some (n - 48)
  else if (97 <=? n) && (n <=? 102) then Some (n - 87)
  else if (65 <=? n) && (n <=? 70) then Some (n - 55)
  else None.
Definition hex4 (a b c d : ascii) : option ascii :=
  match hex_value a, hex_value b, hex_value c, hex_value d with
  | Some a, Some b, Some c, Some d =>
      if (a =? 0) && (b =? 0) then Some (ascii_of_nat (16 * c + d)) else None
  | _, _, _, _ => None
  end.
(** BACKSLASH *)
Definition unescape (c : ascii) : option ascii :=
  let n := nat_of_ascii c in
  if (n =? 34) || (n =? 92) || (n =? 47) then Some c
  else if n =? 98 then Some (ascii_of_nat 8)
  else if n =? 102 then Some (ascii_of_nat 12)
  else if n =? 110 then Some (ascii_of_nat 10)
  else if n =? 114 then Some (ascii_of_nat 13)
  else if n =? 116 then Some (ascii_of_nat 9)
  else None.
Definition cons_to {A B} (c : A) (r : option (list A * B)) : option (list A * B) :=
  match r with Some (k, s) => Some (c :: k, s) | None => None end.
Fixpoint scan_string (s : list ascii) : option (list ascii * list ascii) :=
  match s with
  | [] => None
  | c :: s1 =>
      if Ascii.eqb c quote then Some ([], s1)
      else if Ascii.eqb c backslash then
        match s1 with
        | [] => None
        | e :: s2 =>
            if Ascii.eqb e "u"%char then
              match s2 with
              | h1 :: h2 :: h3 :: h4 :: s3 =>
                  match hex4 h1 h2 h3 h4 with Some c' => cons_to c' (scan_string s3) | None => None end
              | _ => None
              end
            else match unescape e with Some c' => cons_to c' (scan_string s2) | None => None end
        end
      else if nat_of_ascii c <? 32 then None
      else cons_to c (scan_string s1)
  end.
(** NUMBER_RE of json/scanner.py: an optional minus, 0 or a digit sequence without leading zero, optionally a point and digits,
    optionally e or E, a sign and digits *)
Definition is_digit (c : ascii) : bool := let n := nat_of_ascii c in (48 <=? n) && (n <=? 57).
Fixpoint span_digits (s : list ascii) : list ascii * list ascii :=
  match s with
  | c :: r => if is_digit c then let (d, r') := span_digits r in (c :: d, r') else ([], s)
  | [] => ([], [])
  end.
Definition scan_int (s : list ascii) : option (list ascii * list ascii) :=
  match s with
  | c :: r => if Ascii.eqb c "0"%char then Some ([c], r)
              else if is_digit c then let (d, r') := span_digits r in Some (c :: d, r')
              else None
  | [] => None
  end.
Definition scan_sign (s : list ascii) : list ascii * list ascii :=
  match s with
  | c :: r => if Ascii.eqb c "-"%char then ([c], r) else ([], s)
  | [] => ([], [])
  end.
Definition scan_frac (s : list ascii) : list ascii * list ascii :=
  match s with
  | c :: r => if Ascii.eqb c "."%char then
                match span_digits r with
                | ([], _) => ([], s)
                | (d, r') => (c :: d, r')
                end
              else ([], s)
  | [] => ([], [])
  end.
Definition scan_exp (s : list ascii) : list ascii * list ascii :=
  match s with
  | c :: r => if Ascii.eqb c "e"%char || Ascii.eqb c "E"%char then
                let (sg, r1) := match r with
                                | x :: r1 => if Ascii.eqb x "-"%char || Ascii.eqb x "+"%char then ([x], r1) else ([], r)
                                | [] => ([], [])
                                end in
                match span_digits r1 with
                | ([], _) => ([], s)
                | (d, r') => (c :: sg ++ d, r')
                end
              else ([], s)
  | [] => ([], [])
  end.
Definition scan_number (s : list ascii) : option (list ascii * list ascii) :=
  let (sg, s1) := scan_sign s in
  match scan_int s1 with
  | None => None
  | Some (i, s2) =>
      let (f, s3) := scan_frac s2 in
      let (e, s4) := scan_exp s3 in
      Some (sg ++ i ++ f ++ e, s4)
  end.
(** s[idx:idx+4] == 'null' and the like *)
Fixpoint strip_prefix (p s : list ascii) : option (list ascii) :=
  match p, s with
  | [], _ => Some s
  | a :: p', c :: s' => if Ascii.eqb a c then strip_prefix p' s' else None
  | _ :: _, [] => None
  end.
(** the pairs of an object become a dict: a repeated key keeps its place and takes the last value *)
Definition dict_of (l : list (string * json)) : list (string * json) := fold_left (fun d kv => dict_set d (fst kv) (snd kv)) l [].

(** _scan_once, JSONArray, JSONObject; [n] is fuel.  Simplification: NaN, Infinity and -Infinity, which Python reads and
    which the model has no value for, are errors; nesting deeper than the recursion limit is not considered. *)
Fixpoint scan_value (nf : number_format) (n : nat) (s : list ascii) : option (json * list ascii) :=
  match n with
  | 0 => None
  | S n =>
      match s with
      | [] => None
      | c :: r =>
          if Ascii.eqb c quote then
            match scan_string r with Some (k, r') => Some (JStr (string_of_list_ascii k), r') | None => None end
          else if Ascii.eqb c "{"%char then
            match skip_blanks r with
            | d :: r1 =>
                if Ascii.eqb d "}"%char then Some (JObj [], r1)
                else match scan_members nf n (d :: r1) with Some (l, r2) => Some (JObj (dict_of l), r2) | None => None end
            | [] => None
            end
          else if Ascii.eqb c "["%char then
            match skip_blanks r with
            | d :: r1 =>
                if Ascii.eqb d "]"%char then Some (JArr [], r1)
                else match scan_elements nf n (d :: r1) with Some (l, r2) => Some (JArr l, r2) | None => None end
            | [] => None
            end
          else match strip_prefix (chars "null") s with
          | Some r' => Some (JNull, r')
          | None => match strip_prefix (chars "true") s with
          | Some r' => Some (JBool true, r')
          | None => match strip_prefix (chars "false") s with
          | Some r' => Some (JBool false, r')
          | None => match scan_number s with
          | Some (t, r') => match nf_value nf t with Some q => Some (JNum q, r') | None => None end
          | None => None
          end end end end
      end
  end
with scan_elements (nf : number_format) (n : nat) (s : list ascii) : option (list json * list ascii) :=
  match n with
  | 0 => None
  | S n =>
      match scan_value nf n s with
      | None => None
      | Some (v, r) =>
          match skip_blanks r with
          | [] => None
          | c :: r1 => if Ascii.eqb c "]"%char then Some ([v], r1)
                       else if Ascii.eqb c ","%char then cons_to v (scan_elements nf n (skip_blanks r1))
                       else None
          end
      end
  end
with scan_members (nf : number_format) (n : nat) (s : list ascii) : option (list (string * json) * list ascii) :=
  match n with
  | 0 => None
  | S n =>
      match s with
      | [] => None
      | c :: r =>
          if Ascii.eqb c quote then
            match scan_string r with
            | None => None
            | Some (k, r1) =>
                match skip_blanks r1 with
                | [] => None
                | c1 :: r2 =>
                    if Ascii.eqb c1 ":"%char then
                      match scan_value nf n (skip_blanks r2) with
                      | None => None
                      | Some (v, r3) =>
                          match skip_blanks r3 with
                          | [] => None
                          | c2 :: r4 => if Ascii.eqb c2 "}"%char then Some ([(string_of_list_ascii k, v)], r4)
                                        else if Ascii.eqb c2 ","%char then cons_to (string_of_list_ascii k, v) (scan_members nf n (skip_blanks r4))
                                        else None
                          end
                      end
                    else None
                end
            end
          else None
      end
  end.
(** json.loads: JSONDecoder.decode.  JSONDecodeError is a ValueError. *)
Definition json_loads (nf : number_format) (s : list ascii) : result json :=
  match scan_value nf (2 * length s + 1) (skip_blanks s) with
  | Some (j, r) => match skip_blanks r with [] => Ok j | _ :: _ => Err ValueError end
  | None => Err ValueError
  end.

(** ** files *)
(** the files that exist, by absolute path, with their contents.  All the text is ASCII, so the encoding does not matter. *)
Notation files := (string -> option (list ascii)) (only parsing).
Definition put_file (fs : string -> option (list ascii)) (p : string) (t : list ascii) : string -> option (list ascii) :=
  fun q => if String.eqb p q then Some t else fs q.
(** with open(p, "w") as f: json.dump(..., f).  open empties the file, the text then reaches it from the front; the
    process can stop after any of these states.  Simplification: open does not fail, the disk does not fill up. *)
Definition write_states (fs : string -> option (list ascii)) (p : string) (t : list ascii) : list (string -> option (list ascii)) :=
  fs :: map (fun k => put_file fs p (firstn k t)) (seq 0 (S (length t))).

(** json_exporter.py:35-46: the document is built first; an exception there leaves the file system alone.
    [cwd] is os.getcwd(). *)
Definition out_file (nf : number_format) (cwd : string) (ex : exporter) (filename : string) (fs : string -> option (list ascii))
  : result unit * list (string -> option (list ascii)) :=
  match out_document ex with
  | Err e => (Err e, [fs])
  | Ok d => (Ok tt, write_states fs (cwd ++ "/" ++ filename) (dump_text nf d))
  end.
(** networkx 2.5 node_link_data of a DiGraph without attributes *)
Definition node_link_json (d : node_link) : json :=
  JObj [("directed", JBool true); ("multigraph", JBool false); ("graph", JObj []);
        ("nodes", JArr (map (fun x => JObj [("id", JStr x)]) (nl_nodes d)));
        ("links", JArr (map (fun e => JObj [("source", JStr (fst e)); ("target", JStr (snd e))]) (nl_links d)))].
(** structure_estimator.py:98-107 *)
Definition save_results_file (nf : number_format) (g : digraph) (file_path : string) (fs : string -> option (list ascii))
  : result unit * list (string -> option (list ascii)) :=
  (Ok tt, write_states fs file_path (dump_text nf (node_link_json (save_results g)))).
(** json_importer.py:53-61, 103-115: what the constructor reads *)
Definition read_file (nf : number_format) (fs : string -> option (list ascii)) (path : string) : result json :=
  match fs path with
  | None => Err FileNotFoundError
  | Some t => json_loads nf t
  end.
Definition json_importer (nf : number_format) (fs : string -> option (list ascii)) (path : string) (samples_label structure_label variables_label time_key : label)
  (cims_label : option label) (indx : Z) : result (importer * option json) :=
  let* doc := read_file nf fs path in
  json_document_import doc samples_label structure_label variables_label time_key cims_label indx.
