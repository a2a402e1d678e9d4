(** Model of ldaptor/protocols/pureldap.py and of the BER classes of pureber.py:
    decoder contexts, decoding of every class, and encoding of every class.

    Objects are dynamic, as in Python: a decoded field holds whatever value the
    decoded component had, so that hostile input is modelled too.

    Simplifications, all on ill-typed objects that only hostile input produces:
    - the attribute [.value] of a [not] filter is reported as AttributeError;
    - an integer in a place where toWire needs octets is reported as TypeError
      (Python would write its decimal digits);
    - fields given as str are taken as their UTF-8 bytes (to_bytes, _encoder.py 8-22). *)
From Verif Require Import Base BerModel.

(** The classes that a decoder context can name. *)
Inductive cls :=
| KBoolean | KInteger | KOctet | KNull | KEnum | KSeq | KSet
| KMessage | KControls | KControl | KReferral | KString
| KBindReq | KBindResp | KServerSaslCreds | KUnbind
| KSearchReq | KSearchEntry | KSearchDone | KSearchRef
| KModReq | KModResp | KAddReq | KAddResp | KDelReq | KDelResp
| KExtReq | KExtResp | KRespName | KResponse
| KModDNReq | KModDNResp | KNewSuperior
| KAbandon | KCmpReq | KCmpResp | KAva
| KAnd | KOr | KNot | KEq | KSubstr | KGe | KLe | KPresent | KApprox | KExt
| KSubInitial | KSubAny | KSubFinal
| KMraRule | KMraType | KMraValue | KMraDn
| KPwUser | KPwOld | KPwNew.

(** The class attribute [tag]. pureber.py 158, 191, 223, 245, 279, 284, 316;
    pureldap.py, the [tag = ...] line of each class. *)
Definition class_tag (k : cls) : Z :=
  match k with
  | KBoolean => 0x01 | KInteger => 0x02 | KOctet => 0x04 | KNull => 0x05
  | KEnum => 0x0A | KSeq => 0x10 | KSet => 0x11
  | KMessage => 0x10                          (* pureldap.py 70, inherited *)
  | KControls => 0x80                         (* 1073 *)
  | KControl => 0x10                          (* 1085, inherited *)
  | KReferral => 0x83                         (* 235 *)
  | KString => 0x04                           (* 60, inherited *)
  | KBindReq => 0x40                          (* 154 *)
  | KBindResp => 0x41                         (* 374 *)
  | KServerSaslCreds => 0x87                  (* 355 *)
  | KUnbind => 0x42                           (* 437 *)
  | KSearchReq => 0x43                        (* 896 *)
  | KSearchEntry => 0x44                      (* 1014 *)
  | KSearchDone => 0x45                       (* 1069 *)
  | KSearchRef => 0x53                        (* 245 *)
  | KModReq => 0x46                           (* 1146 *)
  | KModResp => 0x47                          (* 1224 *)
  | KAddReq => 0x48                           (* 1228 *)
  | KAddResp => 0x49                          (* 1286 *)
  | KDelReq => 0x4A                           (* 1290 *)
  | KDelResp => 0x4B                          (* 1318 *)
  | KExtReq => 0x57                           (* 1501 *)
  | KExtResp => 0x58                          (* 1629 *)
  | KRespName => 0x8A                         (* 1486 *)
  | KResponse => 0x8B                         (* 1490 *)
  | KModDNReq => 0x4C                         (* 1332 *)
  | KModDNResp => 0x4D                        (* 1405 *)
  | KNewSuperior => 0x80                      (* 1322 *)
  | KAbandon => 0x50                          (* 1454 *)
  | KCmpReq => 0x4E                           (* 1413 *)
  | KCmpResp => 0x4F                          (* 1450 *)
  | KAva => 0x10                              (* 452, inherited *)
  | KAnd => 0x80                              (* 519 *)
  | KOr => 0x81                               (* 526 *)
  | KNot => 0x82                              (* 533 *)
  | KEq => 0x83                               (* 569 *)
  | KSubstr => 0x84                           (* 611 *)
  | KGe => 0x85                               (* 680 *)
  | KLe => 0x86                               (* 693 *)
  | KPresent => 0x87                          (* 706 *)
  | KApprox => 0x88                           (* 713 *)
  | KExt => 0x89                              (* 854 *)
  | KSubInitial => 0x80                       (* 582 *)
  | KSubAny => 0x81                           (* 589 *)
  | KSubFinal => 0x82                         (* 596 *)
  | KMraRule => 0x81                          (* 734 *)
  | KMraType => 0x82                          (* 738 *)
  | KMraValue => 0x83                         (* 742 *)
  | KMraDn => 0x84                            (* 746 *)
  | KPwUser => 0x80                           (* 1539 *)
  | KPwOld => 0x81                            (* 1553 *)
  | KPwNew => 0x82                            (* 1557 *)
  end.

(** The decoder context classes, by name. *)
Inductive tbl :=
| T_BER | T_LDAP | T_LDAPMessage | T_TopLevel | T_BindRequest | T_BindResponse
| T_Filter | T_Substrings | T_MRA | T_Controls | T_SearchRef | T_ModifyDN
| T_Compare | T_ExtReq | T_ExtResp | T_PwModify.

(** The [Identities] dictionaries. *)
Definition identities (t : tbl) : list (Z * cls) :=
  match t with
  | T_BER =>                                       (* pureber.py 320-328 *)
      [(class_tag KBoolean, KBoolean); (class_tag KInteger, KInteger); (class_tag KOctet, KOctet); (class_tag KNull, KNull);
       (class_tag KEnum, KEnum); (class_tag KSeq, KSeq); (class_tag KSet, KSet)]
  | T_LDAP =>                                      (* pureldap.py 1771-1793 *)
      map (fun k => (class_tag k, k))
        [KBindResp; KBindReq; KUnbind; KSearchReq; KSearchEntry; KSearchDone;
         KSearchRef; KReferral; KModReq; KModResp; KAddReq; KAddResp; KDelReq;
         KDelResp; KExtReq; KExtResp; KModDNReq; KModDNResp; KAbandon; KCmpReq; KCmpResp]
  | T_LDAPMessage => [(class_tag KControls, KControls); (class_tag KSearchRef, KSearchRef)]           (* 1133-1136 *)
  | T_TopLevel => [(class_tag KSeq, KMessage)]                                   (* 1140-1142 *)
  | T_BindRequest => [(0x80, KOctet); (0x83, KSeq)]                    (* 147-150 *)
  | T_BindResponse => [(class_tag KServerSaslCreds, KServerSaslCreds)]                       (* 368-370 *)
  | T_Filter =>                                                        (* 869-880 *)
      map (fun k => (class_tag k, k))
        [KAnd; KOr; KNot; KEq; KSubstr; KGe; KLe; KPresent; KApprox; KExt]
  | T_Substrings => [(class_tag KSubInitial, KSubInitial); (class_tag KSubAny, KSubAny); (class_tag KSubFinal, KSubFinal)]  (* 603-607 *)
  | T_MRA => [(class_tag KMraRule, KMraRule); (class_tag KMraType, KMraType); (class_tag KMraValue, KMraValue); (class_tag KMraDn, KMraDn)] (* 750-755 *)
  | T_Controls => [(class_tag KControl, KControl)]                                   (* 1127-1129 *)
  | T_SearchRef => [(class_tag KString, KString)]                                   (* 239-241 *)
  | T_ModifyDN => [(class_tag KNewSuperior, KNewSuperior)]                               (* 1326-1328 *)
  | T_Compare => [(class_tag KSeq, KAva)]                                        (* 1409 *)
  | T_ExtReq => [(0x80, KOctet); (0x81, KOctet)]                       (* 1494-1497 *)
  | T_ExtResp => [(class_tag KRespName, KRespName); (class_tag KResponse, KResponse)]                (* 1622-1625 *)
  | T_PwModify => [(class_tag KPwUser, KPwUser); (class_tag KPwOld, KPwOld); (class_tag KPwNew, KPwNew)]    (* 1561-1565 *)
  end.

(** pureber.py 330-332: a context object. *)
Inductive ctx := Ctx (t : tbl) (fallback : option ctx) (inherit_context : option ctx).

Fixpoint assocz {A} (i : Z) (l : list (Z * A)) : option A :=
  match l with
  | [] => None
  | (j, a) :: r => if i =? j then Some a else assocz i r
  end.

(** pureber.py 334-341: lookup_id. *)
Fixpoint lookup_id (c : ctx) (i : Z) : option cls :=
  match c with
  | Ctx t fb _ =>
      match assocz i (identities t) with
      | Some k => Some k
      | None => match fb with Some c' => lookup_id c' i | None => None end
      end
  end.

(** pureber.py 343-344: inherit. *)
Definition inherit (c : ctx) : ctx :=
  match c with Ctx _ _ (Some c') => c' | Ctx _ _ None => c end.

(** ldapclient.py 43-52 and ldapserver.py 20-30: the contexts of client and server. *)
Definition ctx_ber : ctx := Ctx T_BER None None.
Definition ctx_ldap : ctx := Ctx T_LDAP (Some ctx_ber) None.
Definition ctx_message : ctx := Ctx T_LDAPMessage (Some ctx_ldap) (Some ctx_ldap).
Definition ctx_top : ctx := Ctx T_TopLevel None (Some ctx_message).

(** Values of object attributes. *)
Inductive pv := VNone | VInt (z : Z) | VBytes (b : bytes).

Inductive bauth := ASimple (pw : pv) | ASasl (mech creds : pv).

(** Objects. The first field of each is the instance's tag. *)
Inductive obj :=
| OBool (k : cls) (tag : Z) (v : Z)
| OInt (k : cls) (tag : Z) (v : Z)
| OStr (k : cls) (tag : Z) (v : bytes)
| ONull (k : cls) (tag : Z)
| OSeq (k : cls) (tag : Z) (l : list obj)
| ONot (tag : Z) (v : obj)
| OAva (k : cls) (tag : Z) (attributeDesc assertionValue : obj)
| OSubstr (tag : Z) (type : pv) (substrings : list obj)
| OMra (tag : Z) (matchingRule type : option obj) (matchValue : obj) (dnAttributes : option obj)
| OMessage (tag : Z) (id : pv) (value : obj) (controls : option (list (pv * pv * pv)))
| OControl (tag : Z) (controlType criticality controlValue : pv)
| OBindReq (tag : Z) (version dn : pv) (auth : bauth)
| OSearchRef (tag : Z) (uris : list obj)
| OResult (k : cls) (tag : Z) (resultCode matchedDN errorMessage serverSaslCreds : pv)
| OExtResp (tag : Z) (resultCode matchedDN errorMessage responseName response : pv)
| OSearchReq (tag : Z) (baseObject scope derefAliases sizeLimit timeLimit typesOnly : pv)
             (filter : obj) (attributes : list pv)
| OSearchEntry (tag : Z) (objectName : pv) (attributes : list (pv * list pv))
| OModReq (tag : Z) (object : pv) (modification : list obj)
| OAddReq (tag : Z) (entry : pv) (attributes : obj)
| OModDNReq (tag : Z) (entry newrdn deleteoldrdn newSuperior : pv)
| OCmpReq (tag : Z) (entry : pv) (ava : obj)
| OExtReq (tag : Z) (requestName requestValue : pv).

(** The attribute [o.value]. *)
Definition value_of (o : obj) : res pv :=
  match o with
  | OBool _ _ v => Ok (VInt v)
  | OInt _ _ v => Ok (VInt v)
  | OStr _ _ v => Ok (VBytes v)
  | _ => Err EAttr
  end.

(** The attribute [o.data] of BERSequence objects (UserList): only plain sequences
    hold elements, the constructors of the others pass value=[]. *)
Definition data_of (o : obj) : res (list obj) :=
  match o with
  | OSeq _ _ l => Ok l
  | OBool _ _ _ | OInt _ _ _ | OStr _ _ _ | ONull _ _ | ONot _ _ => Err EAttr
  | _ => Ok []
  end.

(** Iterating over an object: BERSequence objects iterate their data, others raise TypeError. *)
Definition iter_of (o : obj) : res (list obj) :=
  match data_of o with Ok l => Ok l | Err _ => Err EType end.

Definition nth_obj (l : list obj) (n : nat) : res obj :=
  match nth_error l n with Some o => Ok o | None => Err EIndex end.

Fixpoint mapM {A B} (f : A -> res B) (l : list A) : res (list B) :=
  match l with
  | [] => Ok []
  | x :: r => do y <- f x; do ys <- mapM f r; Ok (y :: ys)
  end.

Definition guard (b : bool) (e : exn) : res unit := if b then Ok tt else Err e.

Definition is_str (o : obj) : bool := match o with OStr _ _ _ => true | _ => false end.
Definition is_bool (o : obj) : bool := match o with OBool _ _ _ => true | _ => false end.
Definition obj_cls_is_str (k : cls) (o : obj) : bool :=
  match o with
  | OStr k' _ _ =>
      match k, k' with
      | KMraRule, KMraRule | KMraType, KMraType | KMraValue, KMraValue
      | KServerSaslCreds, KServerSaslCreds | KRespName, KRespName
      | KResponse, KResponse => true
      | _, _ => false
      end
  | _ => false
  end.
Definition is_mra_dn (o : obj) : bool :=
  match o with OBool KMraDn _ _ => true | _ => false end.
Definition is_referral (o : obj) : bool :=
  match o with OSeq KReferral _ _ => true | _ => false end.

(** pureldap.py 87-94: one control of a message. *)
Definition control_tuple (c : obj) : res (pv * pv * pv) :=
  match c with
  | OControl _ t cr v => Ok (t, cr, v)
  | _ => Err EAttr
  end.

(** pureldap.py 777-791: picking the optional parts off the front of the list. *)
Definition take_if (p : obj -> bool) (l : list obj) : option obj * list obj :=
  match l with
  | o :: r => if p o then (Some o, r) else (None, l)
  | [] => (None, [])
  end.

(** pureldap.py 1645-1655: the optional parts of an extended response. *)
Fixpoint ext_parts (l : list obj) (name resp : pv) : res (pv * pv) :=
  match l with
  | [] => Ok (name, resp)
  | o :: r =>
      if obj_cls_is_str KRespName o then do v <- value_of o; ext_parts r v resp
      else if obj_cls_is_str KResponse o then do v <- value_of o; ext_parts r name v
      else if is_referral o then ext_parts r name resp
      else Err EAssert
  end.

(** pureldap.py 1025-1026: "for attr, li in l[1].data". *)
Definition entry_attr (o : obj) : res (pv * list pv) :=
  do parts <- iter_of o;
  match parts with
  | [attr; li] =>
      do a <- value_of attr;
      do xs <- iter_of li;
      do vs <- mapM value_of xs;
      Ok (a, vs)
  | _ => Err EValue
  end.

Definition as_bytes (v : pv) : res pv :=
  match v with VBytes _ => Ok v | _ => Err EType end.

(** The class method fromBER of each class. [fuel] bounds the nesting depth. *)
Fixpoint fromBER (fuel : nat) (k : cls) (tag : Z) (content : bytes) (d : ctx) {struct fuel}
  : res obj :=
  match fuel with
  | O => Err EFuel
  | S f =>
    let decs (c : ctx) (m : bytes) := berDecodeMultiple lookup_id inherit (fromBER f) m c in
    let dec1 (c : ctx) (m : bytes) := berDecodeObject lookup_id inherit (fromBER f) c m in
    match k with
    (* pureber.py 246-262 *)
    | KBoolean | KMraDn =>
        do _ <- guard (zlen content >? 0) EAssert;
        do v <- ber2int true content;
        Ok (OBool k tag (if v =? 0 then 0 else 0xFF))
    (* pureber.py 161-166; pureldap.py 1453-1466 *)
    | KInteger | KEnum | KAbandon =>
        do _ <- guard (zlen content >? 0) EAssert;
        do v <- ber2int true content;
        Ok (OInt k tag v)
    (* pureber.py 195-199 *)
    | KOctet | KString | KServerSaslCreds | KDelReq | KRespName | KResponse
    | KNewSuperior | KPresent | KSubInitial | KSubAny | KSubFinal
    | KMraRule | KMraType | KMraValue | KPwUser | KPwOld | KPwNew =>
        Ok (OStr k tag content)
    (* pureber.py 225-229; pureldap.py 436-442 *)
    | KNull | KUnbind =>
        do _ <- guard (zlen content =? 0) EAssert;
        Ok (ONull k tag)
    (* pureber.py 286-290 *)
    | KSeq | KSet | KReferral =>
        do l <- decs d content;
        Ok (OSeq k tag l)
    (* pureldap.py 79-100 *)
    | KMessage =>
        do l <- decs d content;
        do o0 <- nth_obj l 0; do id_ <- value_of o0;
        do value <- nth_obj l 1;
        do controls <-
           (match nth_error l 2 with
            | Some o2 => do cs <- iter_of o2; do ts <- mapM control_tuple cs; Ok (Some ts)
            | None => Ok None
            end);
        do _ <- guard (match nth_error l 3 with None => true | _ => false end) EAssert;
        Ok (OMessage tag id_ value controls)
    (* pureldap.py 1075-1082 *)
    | KControls =>
        do l <- decs (Ctx T_Controls None (Some d)) content;
        Ok (OSeq k tag l)
    (* pureldap.py 1089-1106 *)
    | KControl =>
        do l <- decs d content;
        match l with
        | [a] => do t <- value_of a; Ok (OControl tag t VNone VNone)
        | [a; b] =>
            if is_bool b then
              do v <- value_of b; do t <- value_of a; Ok (OControl tag t v VNone)
            else if is_str b then
              do v <- value_of b; do t <- value_of a; Ok (OControl tag t VNone v)
            else do t <- value_of a; Ok (OControl tag t VNone VNone)
        | [a; b; c] =>
            do cr <- value_of b; do v <- value_of c; do t <- value_of a;
            Ok (OControl tag t cr v)
        | _ => Err EAssert
        end
    (* pureldap.py 156-176 *)
    | KBindReq =>
        do l <- decs (Ctx T_BindRequest (Some d) None) content;
        do o2 <- nth_obj l 2;
        do auth <-
           (if is_str o2 then do v <- value_of o2; Ok (ASimple v)
            else match data_of o2 with
                 | Ok data =>
                     match data with
                     | [a; b] => do m <- value_of a; do c <- value_of b; Ok (ASasl m c)
                     | _ => do a <- nth_obj data 0; do m <- value_of a; Ok (ASasl m VNone)
                     end
                 | Err _ => Ok (ASimple (VBytes []))
                 end);
        do o0 <- nth_obj l 0; do version <- value_of o0;
        do o1 <- nth_obj l 1; do dn <- value_of o1;
        Ok (OBindReq tag version dn auth)
    (* pureldap.py 253-260: the instance keeps the class tag *)
    | KSearchRef =>
        do l <- decs (Ctx T_SearchRef (Some d) None) content;
        Ok (OSearchRef (class_tag KSearchRef) l)
    (* pureldap.py 274-294 *)
    | KSearchDone | KModResp | KAddResp | KDelResp | KModDNResp | KCmpResp =>
        do l <- decs (Ctx T_BindRequest (Some d) None) content;
        do _ <- guard ((3 <=? zlen l) && (zlen l <=? 4)) EAssert;
        do o0 <- nth_obj l 0; do code <- value_of o0;
        do o1 <- nth_obj l 1; do dn <- value_of o1;
        do o2 <- nth_obj l 2; do msg <- value_of o2;
        Ok (OResult k tag code dn msg VNone)
    (* pureldap.py 382-411; __init__ 413-430 ignores the tag *)
    | KBindResp =>
        do l <- decs (Ctx T_BindResponse (Some d) None) content;
        do _ <- guard ((3 <=? zlen l) && (zlen l <=? 4)) EAssert;
        do creds <- (match nth_error l 3 with
                     | Some o => if obj_cls_is_str KServerSaslCreds o then value_of o else Ok VNone
                     | None => Ok VNone
                     end);
        do o0 <- nth_obj l 0; do code <- value_of o0;
        do o1 <- nth_obj l 1; do dn <- value_of o1;
        do o2 <- nth_obj l 2; do msg <- value_of o2;
        Ok (OResult k (class_tag KBindResp) code dn msg creds)
    (* pureldap.py 453-459 *)
    | KAva | KEq | KGe | KLe | KApprox =>
        do l <- decs d content;
        match l with
        | [a; v] => Ok (OAva k tag a v)
        | _ => Err EAssert
        end
    (* pureldap.py 498-504 *)
    | KAnd | KOr =>
        do l <- decs (Ctx T_Filter (Some d) None) content;
        Ok (OSeq k tag l)
    (* pureldap.py 535-549 *)
    | KNot =>
        do (v, n) <- dec1 (Ctx T_Filter (Some d) (Some d)) content;
        do _ <- guard (n =? zlen content) EAssert;
        match v with
        | Some o => Ok (ONot tag o)
        | None => Err EAssert
        end
    (* pureldap.py 613-622; len(l[1]) is the wire length, which is never 0 *)
    | KSubstr =>
        do l <- decs (Ctx T_Substrings (Some d) None) content;
        match l with
        | [a; s] =>
            do t <- value_of a;
            do subs <- iter_of s;
            Ok (OSubstr tag t subs)
        | _ => Err EAssert
        end
    (* pureldap.py 764-800 *)
    | KExt =>
        do l <- decs (Ctx T_MRA (Some d) (Some d)) content;
        do _ <- guard ((1 <=? zlen l) && (zlen l <=? 4)) EAssert;
        let (rule, l) := take_if (obj_cls_is_str KMraRule) l in
        let (atype, l) := take_if (obj_cls_is_str KMraType) l in
        let (mv, l) := take_if (obj_cls_is_str KMraValue) l in
        let (dn, l) := take_if is_mra_dn l in
        match mv with
        | Some v => Ok (OMra tag rule atype v dn)
        | None => Err EAssert
        end
    (* pureldap.py 909-928 *)
    | KSearchReq =>
        do l <- decs (Ctx T_Filter (Some d) (Some d)) content;
        match l with
        | [o0; o1; o2; o3; o4; o5; o6; o7] =>
            do base <- value_of o0; do scope <- value_of o1; do deref <- value_of o2;
            do size <- value_of o3; do time <- value_of o4; do types <- value_of o5;
            do attrs <- iter_of o7; do vs <- mapM value_of attrs;
            Ok (OSearchReq tag base scope deref size time types o6 vs)
        | _ => Err EAssert
        end
    (* pureldap.py 1016-1028 *)
    | KSearchEntry =>
        do l <- decs (Ctx T_Filter (Some d) (Some d)) content;
        do o0 <- nth_obj l 0; do name <- value_of o0;
        do o1 <- nth_obj l 1; do data <- data_of o1;
        do attrs <- mapM entry_attr data;
        Ok (OSearchEntry tag name attrs)
    (* pureldap.py 1150-1157 *)
    | KModReq =>
        do l <- decs d content;
        match l with
        | [o0; o1] =>
            do object <- value_of o0; do data <- data_of o1;
            Ok (OModReq tag object data)
        | _ => Err EAssert
        end
    (* pureldap.py 1230-1235 *)
    | KAddReq =>
        do l <- decs d content;
        do o0 <- nth_obj l 0; do entry <- value_of o0;
        do o1 <- nth_obj l 1;
        Ok (OAddReq tag entry o1)
    (* pureldap.py 1339-1358 *)
    | KModDNReq =>
        do l <- decs (Ctx T_ModifyDN (Some d) None) content;
        do newSup <- (match nth_error l 3 with
                      | Some o => do v <- value_of o; as_bytes v
                      | None => Ok VNone
                      end);
        do o0 <- nth_obj l 0; do e0 <- value_of o0; do entry <- as_bytes e0;
        do o1 <- nth_obj l 1; do e1 <- value_of o1; do newrdn <- as_bytes e1;
        do o2 <- nth_obj l 2; do del <- value_of o2;
        Ok (OModDNReq tag entry newrdn del newSup)
    (* pureldap.py 1418-1427 *)
    | KCmpReq =>
        do l <- decs (Ctx T_Compare (Some d) (Some d)) content;
        do o0 <- nth_obj l 0; do entry <- value_of o0;
        do o1 <- nth_obj l 1;
        Ok (OCmpReq tag entry o1)
    (* pureldap.py 1506-1528 *)
    | KExtReq =>
        do l <- decs (Ctx T_ExtReq (Some d) None) content;
        do value <- (match nth_error l 1 with Some o => value_of o | None => Ok VNone end);
        do o0 <- nth_obj l 0; do name <- value_of o0;
        do _ <- guard (match name with VBytes _ => true | _ => false end) EAssert;
        do _ <- guard (match value with VBytes _ | VNone => true | _ => false end) EAssert;
        Ok (OExtReq tag name value)
    (* pureldap.py 1634-1666 *)
    | KExtResp =>
        do l <- decs (Ctx T_ExtResp (Some d) None) content;
        do _ <- guard ((3 <=? zlen l) && (zlen l <=? 6)) EAssert;
        do (name, resp) <- ext_parts (skipn 3 l) VNone VNone;
        do o0 <- nth_obj l 0; do code <- value_of o0;
        do o1 <- nth_obj l 1; do dn <- value_of o1;
        do o2 <- nth_obj l 2; do msg <- value_of o2;
        Ok (OExtResp tag code dn msg name resp)
    end
  end.

(** berDecodeObject with the LDAP classes, and enough fuel (proved in LdapProofs). *)
Definition decode (c : ctx) (m : bytes) : res (option obj * Z) :=
  berDecodeObject lookup_id inherit (fromBER (S (length m))) c m.

(** ** Encoding *)

(** pureber.py 176-178: BERInteger(v, tag).toWire() *)
Definition w_int (tag : Z) (v : pv) : res bytes :=
  match v with
  | VInt z => do e <- int2ber true z; tlv tag e
  | VNone => Err EAssert
  | VBytes _ => Err EType
  end.

(** pureber.py 206-208: BEROctetString(v, tag).toWire() *)
Definition w_str (tag : Z) (v : pv) : res bytes :=
  match v with
  | VBytes b => tlv tag b
  | VNone => Err EAssert
  | VInt _ => Err EType
  end.

(** pureber.py 254-266: BERBoolean(v, tag).toWire(); any true value is written as 0xFF *)
Definition w_bool (tag : Z) (v : pv) : res bytes :=
  match v with
  | VInt z => tlv tag [z2b (if z =? 0 then 0 else 0xFF)]
  | VBytes [] => Err EType
  | VBytes _ => tlv tag [z2b 0xFF]
  | VNone => Err EAssert
  end.

(** pureber.py 235: BERNull.toWire() *)
Definition w_null (tag : Z) : bytes := [z2b tag; x00].

(** pureber.py 297-299: BERSequence(parts, tag).toWire() *)
Definition w_seq (tag : Z) (parts : list (res bytes)) : res bytes :=
  do ps <- mapM (fun p => p) parts;
  tlv (Z.lor STRUCTURED tag) (concat ps).

Definition truthy (v : pv) : bool :=
  match v with VNone => false | VInt z => negb (z =? 0) | VBytes [] => false | VBytes _ => true end.

Definition opt_part {A} (o : option A) (f : A -> res bytes) : list (res bytes) :=
  match o with Some a => [f a] | None => [] end.
Definition pv_part (v : pv) (f : pv -> res bytes) : list (res bytes) :=
  match v with VNone => [] | _ => [f v] end.

(** pureldap.py 1117-1123: LDAPControl(t, cr, v).toWire() *)
Definition w_control (tag : Z) (t cr v : pv) : res bytes :=
  w_seq tag ([w_str (class_tag KOctet) t] ++ pv_part cr (w_bool (class_tag KBoolean)) ++ pv_part v (w_str (class_tag KOctet))).

(** pureldap.py 199-220: LDAPBindRequest.toWire() *)
Definition w_auth (a : bauth) : res bytes :=
  match a with
  | ASimple pw => w_str 0x80 pw
  | ASasl mech creds =>
      if truthy creds then w_seq 0x83 [w_str (class_tag KOctet) mech; w_str (class_tag KOctet) creds]
      else w_seq 0x83 [w_str (class_tag KOctet) mech]
  end.

(** The toWire method of each object. *)
Fixpoint toWire (o : obj) : res bytes :=
  match o with
  | OBool _ tag v => w_bool tag (VInt v)
  | OInt _ tag v => w_int tag (VInt v)
  | OStr _ tag v => w_str tag (VBytes v)
  | ONull _ tag => Ok (w_null tag)
  | OSeq _ tag l => w_seq tag (map toWire l)
  | ONot tag v => w_seq tag [toWire v]                       (* pureldap.py 560-562 *)
  | OAva _ tag a v => w_seq tag [toWire a; toWire v]         (* 470-473 *)
  | OSubstr tag t subs =>                                    (* 631-634 *)
      w_seq tag [w_str (class_tag KOctet) t; w_seq (class_tag KSeq) (map toWire subs)]
  | OMra tag rule t v dn =>                                  (* 833-840 *)
      w_seq tag (match rule with Some o => [toWire o] | None => [] end ++
                 match t with Some o => [toWire o] | None => [] end ++
                 [toWire v] ++
                 match dn with Some o => [toWire o] | None => [] end)
  | OMessage _ id v controls =>                              (* 111-118: tag 0x10 always *)
      w_seq (class_tag KSeq) ([w_int (class_tag KInteger) id; toWire v] ++
                  opt_part controls (fun cs =>
                    w_seq (class_tag KControls) (map (fun '(t, cr, cv) => w_control (class_tag KControl) t cr cv) cs)))
  | OControl tag t cr v => w_control tag t cr v
  | OBindReq tag version dn auth =>
      w_seq tag [w_int (class_tag KInteger) version; w_str (class_tag KOctet) dn; w_auth auth]
  | OSearchRef tag uris => w_seq tag (map toWire uris)       (* 262-263 *)
  | OResult _ tag code dn msg creds =>                       (* 318-338 *)
      w_seq tag ([w_int (class_tag KEnum) code; w_str (class_tag KOctet) dn; w_str (class_tag KOctet) msg] ++
                 (if truthy creds then [w_str (class_tag KServerSaslCreds) creds] else []))
  | OExtResp tag code dn msg name resp =>                    (* 1691-1703 *)
      w_seq tag ([w_int (class_tag KEnum) code; w_str (class_tag KOctet) dn; w_str (class_tag KOctet) msg] ++
                 pv_part name (w_str (class_tag KRespName)) ++ pv_part resp (w_str (class_tag KResponse)))
  | OSearchReq tag base scope deref size time types filter attrs =>   (* 962-975 *)
      w_seq tag [w_str (class_tag KOctet) base; w_int (class_tag KEnum) scope; w_int (class_tag KEnum) deref; w_int (class_tag KInteger) size;
                 w_int (class_tag KInteger) time; w_bool (class_tag KBoolean) types; toWire filter;
                 w_seq (class_tag KSeq) (map (w_str (class_tag KOctet)) attrs)]
  | OSearchEntry tag name attrs =>                           (* 1038-1055 *)
      w_seq tag [w_str (class_tag KOctet) name;
                 w_seq (class_tag KSeq) (map (fun '(a, vs) =>
                   w_seq (class_tag KSeq) [w_str (class_tag KOctet) a; w_seq (class_tag KSet) (map (w_str (class_tag KOctet)) vs)]) attrs)]
  | OModReq tag object mods =>                               (* 1202-1206 *)
      w_seq tag [w_str (class_tag KOctet) object; w_seq (class_tag KSeq) (map toWire mods)]
  | OAddReq tag entry attrs =>                               (* 1261-1268 *)
      w_seq tag [w_str (class_tag KOctet) entry;
                 match attrs with
                 | OSeq _ _ l =>
                     w_seq (class_tag KSeq) (map (fun o => match o with
                                               | OSeq _ _ ps => w_seq (class_tag KSeq) (map toWire ps)
                                               | _ => Err EType
                                               end) l)
                 | _ => Err EType
                 end]
  | OModDNReq tag entry newrdn del newSup =>                 (* 1381-1389 *)
      w_seq tag ([w_str (class_tag KOctet) entry; w_str (class_tag KOctet) newrdn; w_bool (class_tag KBoolean) del] ++
                 pv_part newSup (w_str (class_tag KNewSuperior)))
  | OCmpReq tag entry ava => w_seq tag [w_str (class_tag KOctet) entry; toWire ava]   (* 1437-1439 *)
  | OExtReq tag name value =>                                (* 1530-1535 *)
      w_seq tag ([w_str 0x80 name] ++ pv_part value (w_str 0x81))
  end.
