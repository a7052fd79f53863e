[
 {"file":"Axis","def":"axis_of AxNext","old":"if (idx <? length ks - 1)%nat then [nth (idx + 1) ks 0%nat]","new":"if (idx <? length ks)%nat then [nth (idx + 1) ks 0%nat]","edit":"> of the last child reads past the end","claim":"C134 > gives the nearest child after it"},
 {"file":"Axis","def":"axis_of AxLeaves","old":"match n_kids (nd h j) with [] => true | _ => false end)) (walk h i reverse)","new":"match n_kids (nd h j) with [] => false | _ => true end)) (walk h i reverse)","edit":"*** keeps the inner nodes","claim":"C134 *** gives the descendants without children"},
 {"file":"Axis","def":"axis_of AxKids","old":"(if reverse then rev (n_kids (nd h i)) else n_kids (nd h i), None)","new":"(n_kids (nd h i), None)","edit":"order ignored for *","claim":"C134 -* gives the children in reverse"},
 {"file":"Axis","def":"axis_of AxRoot","old":"match rev l with [] => [] | r :: _ => [r] end","new":"match l with [] => [] | r :: _ => [r] end","edit":".... gives the parent","claim":"C134 .... gives what get_root returns"},
 {"file":"Axis","def":"axis_of AxPrevs","old":"if reverse then firstn idx ks else rev (firstn idx ks)","new":"if reverse then rev (firstn idx ks) else firstn idx ks","edit":"<< in document order","claim":"C134 << gives the nearest first"}
]
