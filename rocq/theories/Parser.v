(** Model of pdfme/parser.py and pdfme/encoders.py: serialization of python
    objects to PDF syntax.

    Serialization mutates stream dictionaries while it works, so the model
    returns both the result and the object as it is left afterwards. *)
From Verif Require Import Py.
From Coq Require Import String.
Open Scope N_scope.

(** Python values accepted by the serializer (parser.py 52-54).
    Simplifications: dict keys are [str]; a float is carried as the text
    [str(x)] prints; list, tuple and set (in iteration order) are one
    constructor; [ONone] stands for [None].  The value is a tree: a python
    object reachable by two paths appears twice. *)
Inductive obj : Type :=
| OObj (id : N) (v : obj)
| ORef (n : Z)
| ODict (d : list (str * obj))
| OSeq (l : list obj)
| OBytes (b : bytes)
| OBool (b : bool)
| OInt (z : Z)
| OFloat (repr : str)
| OStr (s : str)
| ONone.

(** Python dict operations on insertion-ordered association lists. *)
Fixpoint dget {V} (k : str) (d : list (str * V)) : option V :=
  match d with
  | [] => None
  | (k', v) :: r => if str_eqb k k' then Some v else dget k r
  end.
Definition dmem {V} (k : str) (d : list (str * V)) : bool :=
  match dget k d with Some _ => true | None => false end.
(** [d[k] = v]: keeps the position of an existing key, appends a new one. *)
Fixpoint dset {V} (k : str) (v : V) (d : list (str * V)) : list (str * V) :=
  match d with
  | [] => [(k, v)]
  | (k', v') :: r => if str_eqb k k' then (k', v) :: r else (k', v') :: dset k v r
  end.
(** [d.pop(k)] / [del d[k]]. *)
Fixpoint dpop {V} (k : str) (d : list (str * V)) : list (str * V) :=
  match d with
  | [] => []
  | (k', v') :: r => if str_eqb k k' then r else (k', v') :: dpop k r
  end.

Definition k_stream : str := lit "__stream__".
Definition k_skip : str := lit "__skip_filter__".
Definition k_Length : str := lit "Length".
Definition k_Filter : str := lit "Filter".

(** Python truth value of an object. *)
Definition truthy (o : obj) : bool :=
  match o with
  | OObj _ _ => true
  | ORef n => negb (Z.eqb n 0)
  | ODict d => match d with [] => false | _ => true end
  | OSeq l => match l with [] => false | _ => true end
  | OBytes b => match b with [] => false | _ => true end
  | OBool b => b
  | OInt z => negb (Z.eqb z 0)
  | OFloat r => negb (str_eqb r (lit "0.0") || str_eqb r (lit "-0.0"))
  | OStr s => match s with [] => false | _ => true end
  | ONone => false
  end.

(** parser.py 85: [re.sub(r'([()])', r'\\\1', obj)]. *)
Fixpoint escape_parens (s : str) : str :=
  match s with
  | [] => []
  | c :: r => if (c =? 40) || (c =? 41) then 92 :: c :: escape_parens r
              else c :: escape_parens r
  end.

(** parser.py 43-50: [PDFRef.ref] = ['{} 0 R'.format(id)]. *)
Definition ref_bytes (n : Z) : bytes := (dec_Z n ++ lit " 0 R")%list.

(** encoders.py 25-42: the filters whose encoder is not implemented. *)
Definition not_implemented_filters : list bytes :=
  [lit "/ASCIIHexDecode"; lit "/ASCII85Decode"; lit "/LZWDecode";
   lit "/RunLengthDecode"; lit "/CCITTFaxDecode"; lit "/JBIG2Decode";
   lit "/DCTDecode"; lit "/JPXDecode"; lit "/Crypt"].

(** Nesting depth, the measure of the recursion of [parse_obj]. *)
Fixpoint depth (o : obj) : nat :=
  match o with
  | OObj _ v => S (depth v)
  | ODict d => S (fold_right (fun kv m => Nat.max (depth (snd kv)) m) 0%nat d)
  | OSeq l => S (fold_right (fun v m => Nat.max (depth v) m) 0%nat l)
  | _ => 0%nat
  end.

Lemma depth_in_seq v l : In v l -> (depth v < depth (OSeq l))%nat.
Proof.
  cbn [depth]. induction l as [|x l IH]; [contradiction|].
  cbn [fold_right]. intros [->|H]; [lia|]. specialize (IH H). lia.
Qed.

Definition dict_depth (d : list (str * obj)) : nat :=
  fold_right (fun kv m => Nat.max (depth (snd kv)) m) 0%nat d.

Lemma depth_in_dict k v d : In (k, v) d -> (depth v <= dict_depth d)%nat.
Proof.
  unfold dict_depth. induction d as [|x l IH]; [contradiction|].
  cbn [fold_right]. intros [->|H]; [cbn; lia|]. specialize (IH H). lia.
Qed.

Lemma in_dpop {V} k (d : list (str * V)) x : In x (dpop k d) -> In x d.
Proof.
  induction d as [|[k' v'] d IH]; cbn [dpop]; [auto|].
  destruct (str_eqb k k'); cbn; tauto.
Qed.

Lemma in_dset {V} k (v : V) d x : In x (dset k v d) -> snd x = v \/ In x d.
Proof.
  induction d as [|[k' v'] d IH]; cbn [dset].
  - intros [<-|[]]; auto.
  - destruct (str_eqb k k'); cbn.
    + intros [<-|H]; auto.
    + intros [<-|H]; auto. apply IH in H. tauto.
Qed.

Section Serializer.
(** [zlib.compress] (encoders.py 46-55): an arbitrary function on bytes. *)
Variable flate : bytes -> bytes.

(** encoders.py 3-44.  A filter that is not bytes has no [decode]. *)
Definition encode_stream (stream : bytes) (filter : obj) : res bytes :=
  match filter with
  | OBytes f =>
      if str_eqb f (lit "/FlateDecode") then Ok (flate stream)
      else if existsb (str_eqb f) not_implemented_filters then Err NotImplementedError
      else Err PyException
  | _ => Err AttributeError
  end.

(** parser.py 88-105 [parse_dict], the loop body from key [k] on; [pv] is
    [parse_obj].  Line 102 compares an int with bytes objects, so the test is
    always true and a space always precedes the value.  [ret[0]] of an empty
    bytes raises IndexError.  The second component is the dict with the values
    as left by the recursive calls. *)
Fixpoint pdict (pv : obj -> res bytes * obj) (acc : bytes) (d : list (str * obj))
  : res bytes * list (str * obj) :=
  match d with
  | [] => (Ok (acc ++ lit ">>")%list, [])
  | (k, v) :: r =>
      match encode_latin k with
      | Err e => (Err e, d)
      | Ok kb =>
          let '(ret, v') := pv v in
          match ret with
          | Err e => (Err e, (k, v') :: r)
          | Ok [] => (Err IndexError, (k, v') :: r)
          | Ok (c :: b) =>
              let '(ret', r') := pdict pv (acc ++ 47 :: kb ++ 32 :: c :: b)%list r in
              (ret', (k, v') :: r')
          end
      end
  end.

(** parser.py 107-123 [parse_list]; [first] is [i == 0]. *)
Fixpoint pseq (pv : obj -> res bytes * obj) (first : bool) (acc : bytes) (l : list obj)
  : res bytes * list obj :=
  match l with
  | [] => (Ok (acc ++ lit "]")%list, [])
  | v :: r =>
      let '(ret, v') := pv v in
      match ret with
      | Err e => (Err e, v' :: r)
      | Ok [] => (Err IndexError, v' :: r)
      | Ok (c :: b) =>
          let '(ret', r') :=
            pseq pv false (acc ++ (if first then [] else [32]) ++ c :: b)%list r in
          (ret', v' :: r')
      end
  end.

(** parser.py 151: [b''.join(stream_.values())]. *)
Fixpoint join_values (d : list (str * obj)) : res bytes :=
  match d with
  | [] => Ok []
  | (_, OBytes b) :: r => do x <- join_values r; Ok (b ++ x)%list
  | _ :: _ => Err TypeError
  end.

(** parser.py 148-155. *)
Definition stream_string (s : obj) : res bytes :=
  match s with
  | OBytes b => Ok b
  | ODict d => join_values d
  | _ => Err PyException
  end.

(** parser.py 125-165 [parse_stream]. *)
Definition pstream (pv : obj -> res bytes * obj) (d : list (str * obj))
  : res bytes * list (str * obj) :=
  match dget k_stream d with
  | None => (Err KeyError, d)
  | Some stream_ =>
      let d1 := dpop k_stream d in
      let skip := match dget k_skip d1 with Some o => truthy o | None => false end in
      let d2 := dpop k_skip d1 in
      match stream_string stream_ with
      | Err e => (Err e, d2)
      | Ok stream_str =>
          let enc :=
            match dget k_Filter d2 with
            | Some f => if skip then Ok stream_str else encode_stream stream_str f
            | None => Ok stream_str
            end in
          match enc with
          | Err e => (Err e, d2)
          | Ok stream =>
              let d3 := dset k_Length (OInt (Z.of_nat (List.length stream))) d2 in
              let '(ret, d4) := pdict pv (lit "<<") d3 in
              match ret with
              | Err e => (Err e, d4)
              | Ok db =>
                  let d5 := dset k_stream stream_ d4 in
                  let d6 := if skip then dset k_skip (OBool true) d5 else d5 in
                  (Ok (db ++ lit "stream" ++ NL :: stream ++ NL :: lit "endstream")%list,
                   d6)
              end
          end
      end
  end.

(** parser.py 56-85 [parse_obj].  Fuel bounds the nesting depth.  For [None]
    the python function falls through and returns [None], on which every
    caller in the package raises TypeError: the model raises it here. *)
Fixpoint parse_fuel (fuel : nat) (o : obj) : res bytes * obj :=
  match fuel with
  | O => (Err OutOfFuel, o)
  | S f =>
      match o with
      | OObj id v => let '(r, v') := parse_fuel f v in (r, OObj id v')
      | ORef n => (Ok (ref_bytes n), o)
      | ODict d =>
          let '(r, d') :=
            if dmem k_stream d then pstream (parse_fuel f) d
            else pdict (parse_fuel f) (lit "<<") d in
          (r, ODict d')
      | OSeq l => let '(r, l') := pseq (parse_fuel f) true (lit "[") l in (r, OSeq l')
      | OBytes b => (Ok b, o)
      | OBool b => (Ok (if b then lit "true" else lit "false"), o)
      | OInt z => (Ok (dec_Z z), o)
      | OFloat r => (encode_latin r, o)
      | OStr s => (encode_latin (40 :: escape_parens s ++ [41])%list, o)
      | ONone => (Err TypeError, o)
      end
  end.

(** [parse_obj]: enough fuel for any object (see [parse_obj_eq]). *)
Definition parse_obj (o : obj) : res bytes * obj := parse_fuel (S (depth o)) o.

(** ** Fuel is irrelevant *)

Lemma pdict_ext pv pw acc d :
  (forall k v, In (k, v) d -> pv v = pw v) -> pdict pv acc d = pdict pw acc d.
Proof.
  revert acc; induction d as [|[k v] d IH]; intros acc H; cbn [pdict]; [reflexivity|].
  destruct (encode_latin k) as [kb|e]; [|reflexivity].
  rewrite (H k v) by (left; reflexivity).
  destruct (pw v) as [[[|c b]|e] v']; try reflexivity.
  rewrite IH; [reflexivity|]. intros k0 v0 H0. apply (H k0). now right.
Qed.

Lemma pseq_ext pv pw first acc l :
  (forall v, In v l -> pv v = pw v) -> pseq pv first acc l = pseq pw first acc l.
Proof.
  revert first acc; induction l as [|v l IH]; intros first acc H; cbn [pseq];
    [reflexivity|].
  rewrite (H v) by (left; reflexivity).
  destruct (pw v) as [[[|c b]|e] v']; try reflexivity.
  rewrite IH; [reflexivity|]. intros v0 H0. apply H. now right.
Qed.

Lemma pstream_ext pv pw d :
  (forall v, (depth v <= dict_depth d)%nat -> pv v = pw v) ->
  pstream pv d = pstream pw d.
Proof.
  intros H. unfold pstream.
  destruct (dget k_stream d) as [s|]; [|reflexivity]. cbv zeta.
  destruct (stream_string s) as [ss|e]; [|reflexivity].
  destruct (match dget k_Filter (dpop k_skip (dpop k_stream d)) with
            | Some f => _ | None => _ end) as [st|e]; [|reflexivity].
  rewrite (pdict_ext pv pw); [reflexivity|].
  intros k v Hin. apply in_dset in Hin as [Hv|Hin].
  - cbn in Hv. subst v. apply H. cbn. lia.
  - apply in_dpop, in_dpop in Hin. apply H. eapply depth_in_dict; eauto.
Qed.

Lemma parse_fuel_enough f g o :
  (depth o < f)%nat -> (depth o < g)%nat -> parse_fuel f o = parse_fuel g o.
Proof.
  revert g o; induction f as [|f IH]; intros [|g] o Hf Hg; try lia.
  cbn [parse_fuel]. destruct o; try reflexivity.
  - cbn [depth] in *. rewrite (IH g); [reflexivity|lia|lia].
  - cbn [depth] in *.
    change (fold_right (fun kv m => Nat.max (depth (snd kv)) m) 0%nat d) with (dict_depth d) in *.
    rewrite (pstream_ext (parse_fuel f) (parse_fuel g)), (pdict_ext (parse_fuel f) (parse_fuel g));
      [reflexivity| |].
    + intros k v Hin. apply depth_in_dict in Hin. apply IH; lia.
    + intros v Hv. apply IH; lia.
  - rewrite (pseq_ext (parse_fuel f) (parse_fuel g)); [reflexivity|].
    intros v Hin. apply depth_in_seq in Hin. apply IH; lia.
Qed.

(** The recursive equation of parser.py 56-85, without fuel. *)
Lemma parse_obj_eq o :
  parse_obj o =
  match o with
  | OObj id v => let '(r, v') := parse_obj v in (r, OObj id v')
  | ORef n => (Ok (ref_bytes n), o)
  | ODict d =>
      let '(r, d') :=
        if dmem k_stream d then pstream parse_obj d
        else pdict parse_obj (lit "<<") d in
      (r, ODict d')
  | OSeq l => let '(r, l') := pseq parse_obj true (lit "[") l in (r, OSeq l')
  | OBytes b => (Ok b, o)
  | OBool b => (Ok (if b then lit "true" else lit "false"), o)
  | OInt z => (Ok (dec_Z z), o)
  | OFloat r => (encode_latin r, o)
  | OStr s => (encode_latin (40 :: escape_parens s ++ [41])%list, o)
  | ONone => (Err TypeError, o)
  end.
Proof.
  unfold parse_obj at 1. cbn [parse_fuel]. destruct o; try reflexivity.
  - cbn [depth].
    change (fold_right (fun kv m => Nat.max (depth (snd kv)) m) 0%nat d) with (dict_depth d).
    rewrite (pstream_ext _ parse_obj), (pdict_ext _ parse_obj); [reflexivity| |].
    + intros k v Hin. apply depth_in_dict in Hin. apply parse_fuel_enough; lia.
    + intros v Hv. apply parse_fuel_enough; lia.
  - rewrite (pseq_ext _ parse_obj); [reflexivity|].
    intros v Hin. apply depth_in_seq in Hin. apply parse_fuel_enough; lia.
Qed.

End Serializer.
