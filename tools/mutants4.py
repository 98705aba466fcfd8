import json
M=[]
def m(id,file,definition,old,new,edit,claim,targets,first=False):
    M.append(dict(id=id,file=file,definition=definition,old=old,new=new,edit=edit,claim=claim,first=first,targets=targets))
N='Model/Nurbs.v'; T=['P_Nurbs']
m('nu1',N,'span_loop','if (span <? num)%nat && Rleb (kn U span) u','if (span <? num)%nat && Rltb (kn U span) u','strict comparison in the linear search','C28',T)
m('nu2',N,'find_span_linear','(span_loop num U num u (degree + 1) - 1)%nat','span_loop num U num u (degree + 1)','the final - 1 dropped','C28',T)
m('nu3',N,'bin_loop','let low\' := if Rltb u (kn U mid) then low else mid in','let low\' := if Rltb u (kn U mid) then low else (mid + 1)%nat in','low moved past mid','C28',T)
m('nu4',N,'find_span_binsearch','then Ok n\n','then Ok (n + 1)%nat\n','end of the domain returns n + 1','C28',T)
m('nu5',N,'bright','kn U (span + j) - u','kn U (span + j + 1) - u','wrong knot on the right','C29',T)
m('nu6',N,'basis_inner','(bleft U span u (j - r) * temp) rest','(bleft U span u (j - r)) rest','saved not multiplied by temp','C29',T)
m('nu7',N,'basis_function_all','nth_error (basis_function i U span u) j','nth_error (basis_function j U span u) i','transposed','C29',T)
m('nu8',N,'basis_function_one','Rleb (kn U (i + degree + 1)) u then 0','Rleb (kn U (i + degree)) u then 0','support too short','C29',T)
m('nu9',N,'one_inner','let ur := kn U (i + j + k + 1) in','let ur := kn U (i + j + k) in','wrong right knot','C29',T)
m('nu10',N,'eval_coord','cpt P (span - degree + i)','cpt P (span - i)','control points in reverse order','C30',T)
m('nu11',N,'linspace','INR x * (stop - start) / INR (num - 1)','INR x * (stop - start) / INR num','last sample missing','C30: samples end at the end of the domain',T)
m('nu12',N,'project','nth j q 0 / nth dim q 0','nth j q 0','no division by the weight','C30',T)
m('nu13',N,'coeff_row','(j <=? span)','(j <? span)','last coefficient dropped','C29: rows of the coefficient matrix',T)
m('nu14',N,'knot_insertion_alpha','(u - kn U (leg + idx)) / (kn U (idx + span + 1) - kn U (leg + idx))','(u - kn U (leg + idx)) / (kn U (idx + span) - kn U (leg + idx))','wrong denominator','C31',T)
m('nu15',N,'insertion_row','(padd (pscale alpha (nth (i + 1) t [])) (pscale (1 - alpha) (nth i t [])))','(padd (pscale (1 - alpha) (nth (i + 1) t [])) (pscale alpha (nth i t [])))','alpha and 1 - alpha swapped','C31',T)
m('nu16',N,'knot_insertion','(skipn (span - s) P) in','(skipn (span - s + 1) P) in','one control point lost','C31',T)
m('nu17',N,'knot_insertion_kv','set_nth kv (i + num) (kn U i)','set_nth kv i (kn U i)','tail not shifted','C31',T)
m('nu18',N,'insert_knot_curve','if check_num && ((Z.of_nat (bc_degree c) - Z.of_nat s) <? Z.of_nat num)%Z then Err ValueError','if check_num && ((Z.of_nat (bc_degree c) - Z.of_nat s) <=? Z.of_nat num)%Z then Err ValueError','maximal insertion rejected','C31',T)
m('nu19',N,'separate_ctrlpts_weights','map (fun x => x / last q 0) (removelast q)','removelast q','points not divided by weights','C31/C32',T)
m('nu20',N,'helper_split_knot_vectors','(firstn ks U ++ [u], repeat u (degree + 1) ++ skipn ks U)','(firstn ks U ++ [u], repeat u degree ++ skipn ks U)','one repetition missing','C32',T)
m('nu21',N,'construct_split_curve','(option_map (skipn (cut - 1)) (bc_weights c))','(bc_weights c)','weights of the second half not cut','C32',T)
m('nu22',N,'construct_split_curve','(skipn (cut - 1) (bc_ctrlpts c)) m2 k2','(skipn cut (bc_ctrlpts c)) m2 k2','shared control point lost','C32',T)
m('nu23',N,'split_curve','construct_split_curve t kv1 kv2 (knot_span + count)','construct_split_curve t kv1 kv2 knot_span','cut index without the insertions','C32',T)
m('nu24',N,'np_unique','else if Reqb x y then l else','else if Reqb x y then x :: l else','duplicates kept','C33',T)
m('nu25',N,'find_multiplicity_tol','Rleb (Rabs (u - k)) tol','Rleb (u - k) tol','absolute value dropped','C33',T)
m('nu26',N,'standardize_knot_vector','map (fun k => (k - first) / d) U','map (fun k => k / d) U','first knot not subtracted','C34',T)
m('nu27',N,'generate_knot_vector','(num + 1 - degree) ++ repeat 1 degree','(num - degree) ++ repeat 1 degree','one knot missing','C34',T)
m('nu28',N,'generate_knot_vector','else Ok (linspace 0 1 (degree + num + 1))','else Ok (linspace 0 1 (degree + num))','unclamped vector one short','C34',T)
m('nu29',N,'insert_km_loop','if Rltb u k then (ks ++ u :: knots, ms ++ num :: mults, i)','if Rltb u k then (ks ++ u :: knots, ms ++ mults ++ [num], i)','multiplicity appended at the end','C35',T)
m('nu30',N,'binomial_coefficient','INR (k - j) / INR (i - j)','INR (k - j) / INR (j + 1)','other order of the products (equivalent mutant: same value)','C37 (equivalent: claim still true)',T)
m('nu31',N,'binomial_coefficient','if (k <? i)%nat then 0','if (k <=? i)%nat then 0','C(n, n) = 0','C37',T)
m('nu32',N,'ctrlptsw','pscale (snd pw) (fst pw) ++ [snd pw]','fst pw ++ [snd pw]','points not multiplied by weights','C30',T)
m('nu33',N,'domain','kn (knotvector c) (length (knotvector c) - (bc_degree c + 1))','kn (knotvector c) (length (knotvector c) - bc_degree c)','wrong end of the domain','C30',T)
m('nu34',N,'get_reverse','(rev (bc_mults c))','(bc_mults c)','multiplicities not reversed','C77',T)
m('nu35',N,'get_reverse','(rev (bc_ctrlpts c))','(bc_ctrlpts c)','control points not reversed','C77',T)
m('nu36',N,'expand_knots','repeat (fst km) (snd km)','repeat (fst km) 1','multiplicities ignored','C33',T)
m('nu37',N,'evaluate','(fst (domain c)) (snd (domain c))\n  end','(snd (domain c)) (fst (domain c))\n  end','sampled backwards (non rational)','C30',T)
m('nu38',N,'bcurve_new','if any_nonzero w then Some w else None','None','weights always dropped by the constructor','C30/C34',T)
m('nu39',N,'insert_knot_curve','(knot_insertion (bc_degree c) U (bc_ctrlpts c) u num s span, None)','(knot_insertion (bc_degree c) U (bc_ctrlpts c) u num 0 span, None)','multiplicity not passed on','C31',T)
L='Model/LinSolve.v'
m('ls1',L,'doolittle_step','mget A i k - dot_prefix L U i k i','mget A i k + dot_prefix L U i k i','sign in U','C36',T)
m('ls2',L,'doolittle_step','(mset L i i 1, U\')','(L, U\')','diagonal of L not set','C36',T)
m('ls3',L,'doolittle','(seq i (n - i)) st','(seq i (n - i - 1)) st','last column not computed','C36',T)
m('ls4',L,'forward_loop','v / mget L i i','v','not divided by the diagonal','C36',T)
m('ls5',L,'backward_loop','(seq i (q - i))','(seq (i + 2) (q - i - 2))','one term of the sum missing','C36',T)
m('ls6',L,'lu_decomposition','then Ok (doolittle A) else Err ValueError','then Ok (doolittle A) else Ok (doolittle A)','not square accepted','C36',T)
m('ls7',L,'doolittle_step','if Reqb (mget U\' i i) 0 then 0 else v / mget U\' i i','v / mget U\' i i','no guard for a zero pivot','C36 (zero pivot behaviour)',T)
json.dump(M,open('/verif/tools/mutants4.json','w'),indent=0)
