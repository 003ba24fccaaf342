*.vo
*.vok
*.vos
*.glob
*.aux
Makefile
Makefile.conf
.Makefile.d
*.d
.lia.cache
.nia.cache
*.aux
.*.aux
*.vok
*.vos
*.glob
*.vo
Makefile
Makefile.conf
.Makefile.d
.nra.cache
