from mutlib import Set, save
r = Set('Model/StepRead.v', ['P_StepRead'])
r('sr1','node_loop','negb (memz node visited_set) && f_known f','f_known f','visited entities are listed again','C229 once')
r('sr2','node_loop','negb (memz node visited_set) && f_known f','negb (memz node visited_set)','unknown entities are listed','C229 known')
r('sr3','node_loop','| None => Err KeyError','| None => node_loop file fuel stack visited_set list_head list_nodes','undefined references are skipped','C229 KeyError')
r('sr4','node_loop','let visited_set := node :: visited_set in','let visited_set := visited_set in','visited set not updated','C229 termination')
r('sr5','node_loop','(list_head ++ [node]) list_nodes','list_head (list_nodes ++ [node])','entities without references not first','C229 heads')
r('sr6','node_loop','(stack ++ filter (fun x => negb (memz x visited_set)) c)','(stack ++ filter (fun x => memz x visited_set) c)','only visited references are followed','C229 reachability')
r('sr7','node_loop','(stack ++ filter (fun x => negb (memz x visited_set)) c)','(stack ++ tl (filter (fun x => negb (memz x visited_set)) c))','first reference not followed','C229 reachability')
r('sr8','node_loop','list_head ++ rev list_nodes','rev list_nodes','heads dropped','C229 list')
r('sr9','create_node_list','node_loop file fuel initial_nodes [] [] []','node_loop file fuel initial_nodes initial_nodes [] []','starting nodes taken as visited','C229 start')
r('sr10','look_up','inr vs => inr (v :: vs)','inr vs => inr vs','object found not used','C231 objects')
r('sr11','set_object','if j =? i then Some v else o j','if j =? i then Some v else None','other objects forgotten','C231 keeps')
r('sr12','set_object','if j =? i then Some v else o j','o j','object not recorded','C231 made')
r('sr13','pass','pass deps make ids (set_object o i v)','(set_object o i v, Done)','stops after the first id','C231 made')
r('sr14','pass','Err e => (o, Failed e)','Err e => pass deps make ids o','failing entity skipped','C231 failing')
r('sr15','pass','inl d => (o, Missing d)','inl d => (o, Missing i)','retries the entity, not what it misses','C231 termination')
r('sr16','instantiate_loop','fuel (key :: ids) o','fuel [key] o','forgets the entity that misses an object','C231 made')
r('sr17','instantiate_loop','fuel (key :: ids) o','fuel (ids ++ [key]) o','missing object made last','C231 termination')
r('sr18','pass','| None => (o, Missing i)','| None => (o, Failed KeyError)','undefined entity reported (the fix)','C232 refutation')
r('sr19','instantiate_all','do o <- helper_instantiate deps make fuel node o; instantiate_all deps make fuel nodes o','helper_instantiate deps make fuel node o','only the first node','C231 all')
x = Set('Model/StepLex.v', ['P_StepLex'])
x('sx2','statements','if negb (last_is ";" line) then statements lines (previous ++ line)','if negb (last_is ";" line) then statements lines line','earlier lines of the statement lost','C236 line breaks')
x('sx3','statements','then (c :: s) :: statements lines [] else','then (c :: s) :: statements lines (c :: s) else','previous line not reset','C236 statements')
x('sx4','statements','if Ascii.eqb c "#" then (c :: s) :: statements lines []','if true then (c :: s) :: statements lines []','header statements kept','C236 only # statements')
x('sx5','statements','| [] => statements lines previous\n','| [] => statements lines []\n','an empty line resets the statement','C236 empty lines')
x('sx6','cut_at','if Ascii.eqb a c then Ok ([], s)','if Ascii.eqb a c then Ok ([], a :: s)','separator kept','C233 names')
x('sx7','to_int','int_of (strip is_space s)','int_of s','blanks before = not accepted','C233 blanks')
x('sx8','quote_comma','if Ascii.eqb a "\'" && Ascii.eqb b "," then Some ([a], s\')','if Ascii.eqb a "\'" then Some ([a], s\')','label ends at the first quote even at the end','C233 unlabelled single string')
x('sx9','separate_entity_name_and_arguments','Some (x, y) => Ok (c :: x, y)','Some (x, y) => Ok (x, y)','label loses its first quote','C233 label')
x('sx10','separate_entity_name_and_arguments','Some (x, y) => Ok (c :: x, y) | None => Ok ([], c :: s)','Some (x, y) => Ok ([], c :: s) | None => Ok ([], c :: s)','label not separated: its blanks go','C233 label')
x('sx11','quoted_match','if last_is "\'" u then','if negb (last_is "\'" u) then','quoted string match inverted','C233 strings')
x('sx12','find_arguments','if Ascii.eqb d ")" then (c :: b ++ [d]) ::','if Ascii.eqb d ")" then (c :: b) ::','closing parenthesis lost','C233 lists')
x('sx13','find_arguments','| _ => x :: find_arguments fuel y end','| _ => x :: find_arguments fuel (tl (tl y)) end','one more character eaten','C233 arguments')
x('sx14','doubles','then i :: doubles c s\'\' (S (S i))','then S i :: doubles c s\'\' (S (S i))','position of (( off by one','C233 tables')
x('sx15','slice','firstn (b - a) (skipn a s)','firstn b (skipn a s)','slice too long','C233 tables')
x('sx16','nested_loop','(arguments ++ findall (slice from a s) ++ [slice a b s])','(arguments ++ [slice a b s])','arguments before the table lost','C233 tables')
x('sx17','nested_loop','(arguments ++ map (strip (Ascii.eqb ",")) (findall (skipn from s)))','arguments','arguments after the table lost','C233 tables')
x('sx18','step_split_arguments','(map (fun i => S (S i)) (doubles ")" f 0))','(map (fun i => S i) (doubles ")" f 0))','last ) of the table lost','C233 tables')
x('sx19','step_split_arguments','then removelast (removelast f) else f','then removelast f else f','final ) kept','C233 last argument')
x('sx20','step_split_arguments','match entity_name with [] => [] | _ => [entity_name] end','[]','label dropped','C233 label')
x('sx21','step_split_arguments','(arguments ++ map (strip (Ascii.eqb ",")) (findall f))','(arguments ++ findall f)','comma of strings kept','C233 strings')
x('sx22','sub_scan','(names ++ [name])%list args else','(name :: names) args else','names in reverse','C234 names')
x('sx23','sub_scan','if (count =? 0)%Z then sub_scan s count name [] names (args ++ [arg])%list','if (count =? 0)%Z then sub_scan s count name arg names (args ++ [arg])%list','arguments of a part not reset','C234 arguments')
x('sx24','sub_scan','if (count =? 1)%Z then sub_scan s count [] arg','if (count =? 1)%Z then sub_scan s count name arg','name of a part not reset','C234 names')
x('sx25','pair_up','step_split_arguments [] a','step_split_arguments n a','name of the part as first argument','C234 arguments')
x('sx26','connection','if Ascii.eqb c "\'" then Ok [] else','if negb (Ascii.eqb c "\'") then Ok [] else','references not recorded','C233 connections')
x('sx27','connection','(split_on "," piece)','(split_on ";" piece)','reference not cut at the comma','C233 connections')
x('sx28','connections_of_text','tl (split_on "#" s)','split_on "#" s','text before the first # taken as a reference','C233 connections')
x('sx29','starts_ref','Ascii.eqb c "(" && Ascii.eqb d "#"','Ascii.eqb c "("','every list taken as references','C233 lists of tokens')
x('sx30','read_argument','starts_ref a && last_is ")" a','false','reference lists not parsed','C233 reference lists')
x('sx31','read_argument','to_int (tl x)','to_int x','# not removed','C233 reference lists')
x('sx32','direct_connection','if Ascii.eqb c "#" then','if negb (Ascii.eqb c "#") then','references of complex entities','C234 connections')
x('sx33','read_statement','do id <- to_int (tl (fst f));','do id <- to_int (fst f);','# of the id not removed','C233 id')
x('sx34','read_statement','let name := drop_char " " (fst na) in','let name := fst na in','blanks kept in the name','C233 blanks')
x('sx35','read_statement','(map fst r) (c1 ++ concat (map snd r))%list)\n  end','(map fst r) c1)\n  end','references of lists counted once','C233 connections')
x('sx36','read_statement','join (tx ", ") (map fst subs)','join (tx ",") (map fst subs)','separator of the names','C234 names')
x('sx37','remove_spaces_outside_quotes','(drop_char " " q) q result','(drop_char " " q) [] result','strings removed','C233 strings')
x('sx38','read_statement','do ea <- separate_entity_name_and_arguments (snd na);\n      do c1 <- connections_of_text (snd ea);','do ea <- separate_entity_name_and_arguments (snd na);\n      do c1 <- connections_of_text (snd na);','references searched in the label too','C233 connections (labels with #)')
so = Set('Model/Solid.v', ['P_Shells'])
so('so7b','triangle_points','[a; b; c]) ts.','[a; b]) ts.','third corner not in the box','C226 boxes')
sh = Set('Model/Shells.v', ['P_Shells'])
sh('sh38b','faces_to_be_merged','match acc with [] =>','match @nil F with [] =>','last group instead of the first','C224 classes')
save('mutants15', r, x, so, sh)
