(** * Console: the commands detect, view and explore, optional dependencies and
    read_dataframe *)
From Coq Require Import String.
From Verif Require Import Base Parser Dialect CsvLib Reader Files Wrappers Potential Consistency Detect Json Codegen.

(** ** Detection with all its arguments *)

(** [Detector().detect(data, method=method, skip=skip)] *)
Definition detector := method_arg -> bool -> str -> res pyexc (option SimpleDialect).
Definition with_detect (E : env) (detect : str -> res pyexc (option SimpleDialect)) : env :=
  mk_env (e_registry E) (e_codec E) (e_get_encoding E) detect (e_limit E).
(** clevercsv/wrappers.py:350-401 [detect_dialect] *)
Definition detect_dialect_by (E : env) (det : detector) (f : fs) (p : path) (num_chars : option Z)
    (encoding : option str) (method : method_arg) (skip : bool) : res pyexc (option SimpleDialect) :=
  detect_dialect (with_detect E (det method skip)) f p encoding num_chars.

(** ** clevercsv/console/commands/detect.py *)

(** clevercsv/dialect.py:141-146 [SimpleDialect.__repr__]; [%r] of None is None. *)
Definition repr_opt (printable : N -> bool) (x : option str) : str :=
  match x with Some s => repr printable s | None => s2l "None" end.
Definition dialect_repr (printable : N -> bool) (d : SimpleDialect) : str :=
  s2l "SimpleDialect(" ++ repr_opt printable (sd_delimiter d) ++ s2l ", " ++ repr_opt printable (sd_quotechar d) ++
  s2l ", " ++ repr_opt printable (sd_escapechar d) ++ s2l ")".

Record detect_args := mk_detect_args {
  da_encoding : option str;
  da_num_chars : option Z;
  da_consistency : bool;
  da_plain : bool;
  da_json : bool;
  da_no_skip : bool;
  da_add_runtime : bool
}.

(** clevercsv/console/commands/detect.py:103-139 [DetectCommand.handle].
    [space] is [str.isspace] for one character; [runtime] is the text of the
    float that was measured and [runtime6] its text with six decimals.  The
    option num-chars is an int already ([type=int]).  Lines printed to stderr
    are not modelled. *)
Definition detect_command (E : env) (det : detector) (printable space : N -> bool) (runtime runtime6 : str)
    (f : fs) (p : path) (A : detect_args) : outcome :=
  let method := MStr (if da_consistency A then s2l "consistency" else s2l "auto") in
  let skip := negb (da_no_skip A) in
  match detect_dialect_by E det f p (da_num_chars A) (da_encoding A) method skip with
  | Err x => Raised x
  | Ok None => Printed [] 1
  | Ok (Some dialect) =>
      if da_plain A then
        Printed
          ([strip_by space (s2l "delimiter = " ++ fmt (sd_delimiter dialect));
            strip_by space (s2l "quotechar = " ++ fmt (sd_quotechar dialect));
            strip_by space (s2l "escapechar = " ++ fmt (sd_escapechar dialect))] ++
           if da_add_runtime A then [s2l "runtime = " ++ runtime] else []) 0
      else if da_json A then
        match to_dict dialect with
        | Err x => Raised x
        | Ok v =>
            let v := if da_add_runtime A
                     then match v with JObj l => JObj (dict_set (s2l "runtime") (JNum runtime) l) | v => v end
                     else v in
            Printed [dumps v] 0
        end
      else
        Printed
          ((s2l "Detected: " ++ dialect_repr printable dialect) ::
           if da_add_runtime A then [s2l "Runtime: " ++ runtime6 ++ s2l " seconds"] else []) 0
  end.

(** ** clevercsv/_optional.py *)

(** A module, as far as it matters here: its [__version__], if it has one. *)
Record pymodule := mk_module { mod_version : option str }.
(** [importlib.import_module(name)] *)
Definition importer := str -> res pyexc pymodule.
(** [Version(a) < Version(b)]; an invalid version raises a ValueError. *)
Definition version_order := str -> str -> res pyexc bool.

(** clevercsv/_optional.py:33-38 [OPTIONAL_DEPENDENCIES]: import name and
    minimal version (the package name is used in messages only). *)
Definition optional_dependencies : list (str * str) :=
  [ (s2l "tabview", s2l "1.4");
    (s2l "pandas", s2l "0.24.1");
    (s2l "cchardet", s2l "2.1.18");
    (s2l "wilderness", s2l "0.1.5") ].

(** clevercsv/_optional.py:41-104 [import_optional_dependency] *)
Definition import_optional_dependency (imp : importer) (vlt : version_order) (name : str) (raise_on_missing : bool)
  : res pyexc (option pymodule) :=
  match imp name with
  | Err ImportError => if raise_on_missing then Err ImportError else Ok None
  | Err x => Err x
  | Ok m =>
      match dict_get name optional_dependencies with
      | None => Err ImportError
      | Some min_version =>
          match mod_version m with
          | None => Ok (Some m)
          | Some v => bind (vlt v min_version) (fun old => if old then Err ImportError else Ok (Some m))
          end
      end
  end.

(** clevercsv/encoding.py:20-64 [get_encoding] with the choice of the detector
    (lines 42-52); [chardet] and [cchardet] are what [get_encoding] of Files.v
    answers with the two detectors. *)
Definition get_encoding_by (imp : importer) (vlt : version_order) (chardet cchardet : bytes -> option str)
    (f : fs) (p : path) (try_cchardet : bool) : res pyexc (option str) :=
  bind (if try_cchardet then import_optional_dependency imp vlt (s2l "cchardet") false else Ok None) (fun m =>
  match f p with
  | None => Err OSError
  | Some b => Ok (match m with None => chardet b | Some _ => cchardet b end)
  end).

(** ** clevercsv/console/commands/view.py *)

Inductive view_outcome :=
| Viewed (rows : list (list (option cell)))   (* shown by tabview; exit code 0 *)
| NotViewed (code : nat)
| ViewRaised (x : pyexc).

(** [max(map(len, rows))]; a ValueError if there are no rows. *)
Definition max_row_length (rows : list (list cell)) : option nat :=
  match rows with
  | [] => None
  | r :: rs => Some (fold_left (fun m r => Nat.max m (List.length r)) rs (List.length r))
  end.
(** clevercsv/console/commands/view.py:87-92: one row. *)
Definition fix_row (n : nat) (row : list cell) : list (option cell) :=
  if Nat.eqb (List.length row) n then map Some row
  else map Some row ++ repeat None (n - List.length row).

(** clevercsv/console/commands/view.py:55-67 [ViewCommand._tabview] *)
Definition tabview (imp : importer) (vlt : version_order) (win32 : bool) (rows : list (list (option cell))) : view_outcome :=
  if win32 then NotViewed 0
  else match import_optional_dependency imp vlt (s2l "tabview") true with
       | Err x => ViewRaised x
       | Ok _ => Viewed rows
       end.

(** clevercsv/console/commands/view.py:69-95 [ViewCommand.handle] *)
Definition view_command (E : env) (imp : importer) (vlt : version_order) (win32 : bool) (f : fs) (h : heap) (p : path)
    (encoding : option str) (num_chars : option Z) (transpose : bool) : view_outcome :=
  match read_table E f h p None encoding num_chars with
  | Err NoDetectionResult => NotViewed 1
  | Err x => ViewRaised x
  | Ok rows =>
      if transpose then
        match max_row_length rows with
        | None => ViewRaised ValueError
        | Some n => tabview imp vlt win32 (zip_star (map (fix_row n) rows))
        end
      else tabview imp vlt win32 (map (map Some) rows)
  end.

(** ** clevercsv/console/commands/explore.py *)
Section Explore.
(** [code.InteractiveConsole]: [push] returns True if more input is needed. *)
Context {C : Type} (push : C -> str -> C * bool) (console : C).

Inductive explore_outcome :=
| Interacting (c : C) (variable : str)        (* exit code 0 *)
| Listed (lines : list str)                   (* the commands are printed; exit code 1 *)
| NoDialect                                   (* exit code 1 *)
| ExploreRaised (x : pyexc).

(** clevercsv/console/commands/explore.py:84-85: the console and the last
    [retcode] (without lines it would be unbound: [None]). *)
Fixpoint push_lines (c : C) (retcode : option bool) (lines : list str) : C * option bool :=
  match lines with
  | [] => (c, retcode)
  | l :: ls => let '(c, r) := push c l in push_lines c (Some r) ls
  end.

(** clevercsv/console/commands/explore.py:65-98 [ExploreCommand.handle] *)
Definition explore_command (E : env) (printable : N -> bool) (int_of : str -> option Z) (locate : str -> path)
    (f : fs) (filename : str) (encoding : option str) (num_chars : option str) (pandas : bool) : explore_outcome :=
  let p := locate filename in
  match
    match or_encoding encoding with
    | Some e => Ok (Some e)
    | None => match f p with Some b => Ok (e_get_encoding E b) | None => Err OSError end
    end with
  | Err x => ExploreRaised x
  | Ok encoding =>
      match parse_int int_of num_chars with
      | Err x => ExploreRaised x
      | Ok n =>
          match detect_dialect E f p encoding n with
          | Err x => ExploreRaised x
          | Ok None => NoDialect
          | Ok (Some dialect) =>
              match generate_code printable filename dialect encoding pandas with
              | Err x => ExploreRaised x
              | Ok lines =>
                  match push_lines console None lines with
                  | (_, None) => ExploreRaised AttributeError   (* not reached: there are lines *)
                  | (_, Some true) => Listed lines
                  | (c, Some false) => Interacting c (if pandas then s2l "df" else s2l "rows")
                  end
              end
          end
      end
  end.
End Explore.

(** ** clevercsv/wrappers.py [read_dataframe] *)

(** A call of [pandas.read_csv]. *)
Record csv_call (V : Type) := mk_csv_call {
  call_path : path;
  call_args : list V;
  call_dialect : csvdialect;
  call_encoding : option str;
  call_kwargs : list (str * V)
}.
Arguments mk_csv_call {V}. Arguments call_path {V}. Arguments call_args {V}. Arguments call_dialect {V}.
Arguments call_encoding {V}. Arguments call_kwargs {V}.

(** clevercsv/wrappers.py:286-347 [read_dataframe], up to the call it ends
    with.  Files that exist are regular here.  [encoding] is the keyword
    argument of this name and [kwargs] are the others; a [dialect] among them
    would be given twice (TypeError). *)
Definition read_dataframe {V} (E : env) (imp : importer) (vlt : version_order) (f : fs) (p : path) (args : list V)
    (num_chars : option Z) (encoding : option str) (kwargs : list (str * V)) : res pyexc (csv_call V) :=
  match f p with
  | None => Err ValueError
  | Some b =>
      bind (import_optional_dependency imp vlt (s2l "pandas") true) (fun _ =>
      let enc := match or_encoding encoding with Some e => Some e | None => e_get_encoding E b end in
      bind (e_codec E enc) (fun c =>
      bind (bind (read_chars c b num_chars) (e_detect E)) (fun dialect =>
      match dialect with
      | None => Err NoDetectionResult
      | Some d =>
          bind (to_csv_dialect d) (fun csv_dialect =>
          if existsb (fun kv => str_eqb (fst kv) (s2l "dialect")) kwargs then Err TypeError
          else Ok (mk_csv_call p args csv_dialect enc kwargs))
      end)))
  end.
