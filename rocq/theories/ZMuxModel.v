(** Where the z-pages are served: zpages/zpages.go:44-70, with path.Clean, path.Join and
    http.ServeMux of the standard library (before Go 1.22), and the embedded files of
    zpages/internal/resources.go with http.FileServer.

    Not modelled: CONNECT requests, queries, the bodies of pages (C60, C66-C68, C79, C80 for
    those) and the data of the embedded files. A host is given without its port. *)

From Coq Require Import String.
From Coq Require Import List NArith Bool Arith.
From Verif Require Import Base Text.
Import ListNotations.
Open Scope nat_scope.

(** '/', used throughout zpages/zpages.go:58-60. *)
Definition slash : byte := n2b 47.

(** path.Clean, one element (the switch in its loop; called at zpages/internal/resources.go:51 and
    in path.Join, zpages/zpages.go:58-60). [out] is the result so far, last element first. *)
Definition clean_seg (rooted : bool) (out : list bytes) (seg : bytes) : list bytes :=
  if bytes_eqb seg [] || bytes_eqb seg (bs ".") then out
  else if bytes_eqb seg (bs "..") then
    match out with
    | [] => if rooted then [] else [seg]
    | top :: r => if bytes_eqb top (bs "..") then seg :: out else r
    end
  else seg :: out.

(** path.Clean (zpages/internal/resources.go:51). *)
Definition clean (p : bytes) : bytes :=
  match p with
  | [] => bs "."
  | c :: _ =>
      let rooted := byte_eqb c slash in
      let out := rev (fold_left (clean_seg rooted) (split_byte slash p) []) in
      if rooted then slash :: join_byte slash out
      else match out with [] => bs "." | _ => join_byte slash out end
  end.

(** path.Join of two elements (zpages/zpages.go:58-60). *)
Definition path_join (a b : bytes) : bytes :=
  match a, b with
  | [], [] => []
  | [], _ => clean b
  | _, [] => clean a
  | _, _ => clean (a ++ slash :: b)
  end.

(** What is registered: handlers of the program, and those of zpages/zpages.go:58-60. *)
Inductive hdl : Type := HUser (n : nat) | HRpcz | HTracez | HFiles.

(** http.ServeMux: the patterns in the order of registration (zpages/zpages.go:47). *)
Notation mux := (list (bytes * hdl)).

(** mux.m at a pattern (zpages/zpages.go:58-60 adds to it). *)
Fixpoint mux_get (m : mux) (pat : bytes) : option hdl :=
  match m with
  | [] => None
  | (q, h) :: r => if bytes_eqb q pat then Some h else mux_get r pat
  end.

(** ServeMux.Handle (zpages/zpages.go:58-60). [None] is a panic: the pattern is empty or taken. *)
Definition mux_add (m : mux) (pat : bytes) (h : hdl) : option mux :=
  match pat with
  | [] => None
  | _ => match mux_get m pat with Some _ => None | None => Some (m ++ [(pat, h)]) end
  end.

(** zpages/zpages.go:53-61 [Handle], without [enable]. The boolean is false after a panic. *)
Definition zp_handle (m : mux) (prefix : bytes) : mux * bool :=
  match mux_add m (path_join prefix (bs "rpcz")) HRpcz with
  | None => (m, false)
  | Some m1 =>
      match mux_add m1 (path_join prefix (bs "tracez")) HTracez with
      | None => (m1, false)
      | Some m2 =>
          match mux_add m2 (path_join prefix (bs "public/")) HFiles with
          | None => (m2, false)
          | Some m3 => (m3, true)
          end
      end
  end.

(** Whether the last byte is a slash (ServeMux.Handle keeps such patterns in mux.es;
    zpages/zpages.go:60). *)
Definition ends_slash (s : bytes) : bool := match rev s with c :: _ => byte_eqb c slash | [] => false end.

(** ServeMux.match, the loop over mux.es: the longest pattern with a slash at its end that
    starts the path (for the mux of zpages/zpages.go:47). *)
Definition longest (m : mux) (path : bytes) : option (bytes * hdl) :=
  fold_left (fun best e =>
    if ends_slash (fst e) && has_prefix path (fst e) then
      match best with
      | Some b => if length (fst b) <? length (fst e) then Some e else best
      | None => Some e
      end
    else best) m None.

(** ServeMux.match (for the mux of zpages/zpages.go:47). *)
Definition mux_match (m : mux) (path : bytes) : option hdl :=
  match mux_get m path with
  | Some h => Some h
  | None => option_map snd (longest m path)
  end.

(** mux.hosts: some pattern does not start with a slash (zpages/zpages.go:58-60 may add such). *)
Definition has_hosts (m : mux) : bool :=
  existsb (fun e => match fst e with c :: _ => negb (byte_eqb c slash) | [] => false end) m.

(** ServeMux.handler; [None] is http.NotFound (for the mux of zpages/zpages.go:47). *)
Definition mux_handler (m : mux) (host path : bytes) : option hdl :=
  match (if has_hosts m then mux_match m (host ++ path) else None) with
  | Some h => Some h
  | None => mux_match m path
  end.

(** net/http's cleanPath (for the mux of zpages/zpages.go:47). *)
Definition clean_path (p : bytes) : bytes :=
  match p with
  | [] => [slash]
  | c :: _ =>
      let p := if byte_eqb c slash then p else slash :: p in
      let np := clean p in
      if ends_slash p && negb (bytes_eqb np [slash]) then np ++ [slash] else np
  end.

(** ServeMux.shouldRedirectRLocked (for the mux of zpages/zpages.go:47). *)
Definition should_redirect (m : mux) (host path : bytes) : bool :=
  let known p := match mux_get m p with Some _ => true | None => false end in
  if known path || known (host ++ path) then false
  else if known (path ++ [slash]) || known (host ++ path ++ [slash]) then negb (ends_slash path)
  else false.

(** What a request gets: a handler, a redirection (301) or 404. *)
Inductive served : Type := Served (h : hdl) | Moved (path : bytes) | NotFound.

(** ServeMux.Handler (for the mux of zpages/zpages.go:47). *)
Definition serve (m : mux) (host path : bytes) : served :=
  let p := clean_path path in
  if should_redirect m host p then Moved (p ++ [slash])
  else if negb (bytes_eqb p path) then Moved p
  else match mux_handler m host path with Some h => Served h | None => NotFound end.

(** ** The embedded files *)

(** zpages/internal/resources.go:191-284 [_escData]: names and whether they are directories. *)
Definition esc_data : list (bytes * bool) :=
  [(bs "/public/opencensus.css", false); (bs "/templates/footer.html", false); (bs "/templates/header.html", false);
   (bs "/templates/rpcz.html", false); (bs "/templates/summary.html", false); (bs "/templates/traces.html", false);
   (bs "/", true); (bs "/public", true); (bs "/templates", true)].

(** zpages/internal/resources.go:50-53, 75-81 [Open] and 126-128 [IsDir]. *)
Definition esc_open (name : bytes) : option bool :=
  match find (fun e => bytes_eqb (fst e) (clean name)) esc_data with Some e => Some (snd e) | None => None end.

(** zpages/templates.go:40-58 [parseTemplate] and its five calls when the package is
    initialised: false if one panics because its file is missing. (That the texts are well
    formed templates is not modelled; a directory would be read as an empty text.) *)
Definition parse_templates : bool :=
  forallb (fun name => match esc_open (bs "/templates/" ++ name ++ bs ".html") with Some _ => true | None => false end)
    [bs "header"; bs "summary"; bs "rpcz"; bs "traces"; bs "footer"].

(** What http.FileServer answers. *)
Inductive fserved : Type := FContent (name : bytes) | FListing | FRedirect | FNotFound.

(** http.FileServer(fs) (zpages/zpages.go:60): serveFile with redirect = true. Paths that end
    in /index.html are redirected before the file is looked up; the mux gives it none. *)
Definition file_server (path : bytes) : fserved :=
  let name := clean (match path with c :: _ => if byte_eqb c slash then path else slash :: path | [] => [slash] end) in
  match esc_open name with
  | None => FNotFound
  | Some true => if ends_slash path then FListing else FRedirect
  | Some false => if ends_slash path then FRedirect else FContent name
  end.

(** ** The package *)

(** zpages/zpages.go:63-70 and zpages/rpcz.go:59-68: internal.LocalSpanStoreEnabled, how often the views
    and the exporter of the RPC page were registered, and the muxes; mux 0 is the deprecated
    [Handler] (zpages.go:44), mux 1 http.DefaultServeMux. *)
Record zworld : Type := MkZW { z_once : bool; z_enabled : bool; z_views : nat; z_exports : nat; z_muxes : list mux }.

(** zpages/zpages.go:63-70 [enable]. *)
Definition z_enable (w : zworld) : zworld :=
  if z_once w then w else MkZW true true (S (z_views w)) (S (z_exports w)) (z_muxes w).

(** Calls of the program: a new mux, a registration of its own, zpages.Handle with one of its
    muxes or nil (zpages/zpages.go:53). *)
Inductive zop : Type := ZNew | ZUser (i : nat) (pat : bytes) (n : nat) | ZHandle (i : option nat) (prefix : bytes).

(** Assignment to a variable. No code of its own (zpages/zpages.go:55). *)
Fixpoint set_nth {A} (i : nat) (x : A) (l : list A) : list A :=
  match l, i with
  | [], _ => []
  | _ :: r, O => x :: r
  | y :: r, S j => y :: set_nth j x r
  end.

(** One call (zpages/zpages.go:53-61); a panic is recovered by the program. *)
Definition z_step (w : zworld) (op : zop) : zworld :=
  match op with
  | ZNew => MkZW (z_once w) (z_enabled w) (z_views w) (z_exports w) (z_muxes w ++ [[]])
  | ZUser i pat n =>
      match nth_error (z_muxes w) i with
      | Some m => match mux_add m pat (HUser n) with
                  | Some m' => MkZW (z_once w) (z_enabled w) (z_views w) (z_exports w) (set_nth i m' (z_muxes w))
                  | None => w
                  end
      | None => w
      end
  | ZHandle i prefix =>
      let w := z_enable w in
      let i := match i with Some i => i | None => 1 end in
      match nth_error (z_muxes w) i with
      | Some m => MkZW (z_once w) (z_enabled w) (z_views w) (z_exports w) (set_nth i (fst (zp_handle m prefix)) (z_muxes w))
      | None => w
      end
  end.

(** Importing the package (zpages/zpages.go:46-50). *)
Definition z_import : zworld := z_step (MkZW false false 0 0 [[]; []]) (ZHandle (Some 0) [slash]).

(** A program that imports the package and makes these calls (zpages/zpages.go:46-61). *)
Definition z_run (ops : list zop) : zworld := fold_left z_step ops z_import.
