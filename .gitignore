*.cache
*.aux
*.vo
*.vok
*.vos
*.glob
.Makefile.d
Makefile
Makefile.conf
.coqdeps.d
