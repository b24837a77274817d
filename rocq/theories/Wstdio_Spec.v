(** What a C program may observe of a wide-oriented stream, stated on lists of wide characters. *)
From Verif Require Import Base Stdio_Model Stdio_Spec Utf8_Spec Wstdio_Model.
Open Scope Z_scope.

(** the character pushed back with ungetwc, the characters of the rest of the file, and the indicators *)
Record wview := mk_wview { wpushed : option Z; wrest : list Z; wat_eof : bool; win_error : bool }.
Definition waiting (v : wview) : list Z := match wpushed v with Some c => [c] | None => [] end ++ wrest v.
(** [W], [h] show the view: the bytes ahead are the UTF-8 encoding of the characters *)
Definition shows (W : WFILE) (h : host) (v : wview) : Prop :=
  Forall scalar (wrest v) /\ upcoming (seen (file W) h) = utf8_string (wrest v) /\
  feof (file W) = wat_eof v /\ ferror (file W) = win_error v /\
  match wpushed v with
  | Some c => Z.testbit (state (file W)) 8 = true /\ is_i32 c /\ c <> -1 /\ pushback W = c mod 2^32
  | None => Z.testbit (state (file W)) 8 = false
  end.

Inductive wop := WGetc | WUngetc (c : Z) | WGets (n : Z) | WFeof | WFerror.
Inductive wresult := WInt (z : Z) | WLine (l : option (list Z)) | WFlag (b : bool).
Definition wlegal (o : wop) : Prop := match o with WUngetc c => is_i32 c | WGets n => is_i32 n | _ => True end.
Definition wtake (v : wview) : wview :=
  match wpushed v with
  | Some _ => mk_wview None (wrest v) (wat_eof v) (win_error v)
  | None => mk_wview None (tl (wrest v)) (wat_eof v || (match wrest v with [] => true | _ => false end)) (win_error v)
  end.
Fixpoint wtakes (n : nat) (v : wview) : wview := match n with O => v | S n => wtakes n (wtake v) end.
Definition wreference (o : wop) (v : wview) : wresult * wview :=
  match o with
  | WGetc => (WInt (match waiting v with c :: _ => c | [] => -1 end), wtake v)
  | WUngetc c => if c =? -1 then (WInt (-1), v) else
                 match wpushed v with
                 | Some _ => (WInt (-1), v)
                 | None => (WInt c, mk_wview (Some c) (wrest v) false (win_error v))
                 end
  | WGets n => if n <=? 0 then (WLine None, v) else
               let l := line 10 (Z.to_nat (n - 1)) (waiting v) in
               let short := (length l <? Z.to_nat (n - 1))%nat && negb (last l 0 =? 10) in
               (WLine (if (n =? 1) || negb (length l =? 0)%nat then Some l else None),
                let v := wtakes (length l) v in mk_wview (wpushed v) (wrest v) (wat_eof v || short) (win_error v))
  | WFeof => (WFlag (wat_eof v), v)
  | WFerror => (WFlag (win_error v), v)
  end.
Fixpoint wreference_run (os : list wop) (v : wview) : list wresult * wview :=
  match os with
  | [] => ([], v)
  | o :: os => let '(r, v) := wreference o v in let '(rs, v) := wreference_run os v in (r :: rs, v)
  end.
Definition wdo (o : wop) (W : WFILE) (h : host) : res (wresult * WFILE * host) :=
  match o with
  | WGetc => do (c, W, h) <- fgetwc W h; Ok (WInt c, W, h)
  | WUngetc c => let '(c, W) := ungetwc c W in Ok (WInt c, W, h)
  | WGets n => do (l, W, h) <- fgetws n W h; Ok (WLine l, W, h)
  | WFeof => Ok (WFlag (feof (file W)), W, h)
  | WFerror => Ok (WFlag (ferror (file W)), W, h)
  end.
Fixpoint wdo_all (os : list wop) (W : WFILE) (h : host) : res (list wresult * WFILE * host) :=
  match os with
  | [] => Ok ([], W, h)
  | o :: os => do (r, W, h) <- wdo o W h; do (rs, W, h) <- wdo_all os W h; Ok (r :: rs, W, h)
  end.
