*.vo
*.vok
*.vos
*.glob
*.aux
.*.aux
*.cache
.lia.cache
Makefile
Makefile.conf
.Makefile.d
*.pyc
*.lia.cache
